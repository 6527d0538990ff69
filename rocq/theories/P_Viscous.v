(** C64: the Jacobians of the diffusive flux and the viscous terms of the characteristic boundary condition. *)
From Coq Require Import Reals List Arith Lia Lra Bool.
From Coquelicot Require Import Coquelicot.
From Verif Require Import Base M_Bla M_Flow S_Flow S_Chars S_Stress M_Formulation S_Formulation L_Flow P_Eos P_Chars P_Jacobian L_Formulation S_Scaling P_Scaling P_Cbc P_Stress M_Viscous S_Viscous.
From Verif Require Import S_Formulation.
Import ListNotations.
Open Scope R_scope.

Section Local.
Variables (cfg : settings) (mu re pr : R).
Hypothesis G : 1 < s_gamma cfg.
Hypothesis D2 : s_dim cfg = 2%nat.
Hypothesis Er : reference_reynolds_number cfg = Ok re.
Hypothesis Ep : prandtl_number cfg = Ok pr.

Lemma two_u (l : list R) : length l = 2%nat -> l = [nth 0 l 0; nth 1 l 0].
Proof. destruct l as [|a [|b [|]]]; try discriminate. reflexivity. Qed.
Lemma five_q (l : list R) : length l = 5%nat -> l = [nth 0 l 0; nth 1 l 0; nth 2 l 0; nth 3 l 0; nth 4 l 0].
Proof. destruct l as [|a [|b [|c [|d [|e [|]]]]]]; try discriminate. reflexivity. Qed.
Lemma four_q (l : list R) : length l = 4%nat -> l = [nth 0 l 0; nth 1 l 0; nth 2 l 0; nth 3 l 0].
Proof. destruct l as [|a [|b [|c [|d [|]]]]]; try discriminate. reflexivity. Qed.

Definition mixed_grads (Q : list R) : grads :=
  mk_grads None None None None (Some [nth 3 Q 0; nth 4 Q 0]) None None None None None None None
    (Some (mk_matrix 2 2 [1 * nth 0 Q 0; 1 * nth 1 Q 0; 1 * nth 1 Q 0; 1 * nth 2 Q 0])).

Lemma mixed_fields_ok Q : length Q = 5%nat -> strain_heat_fields cfg Q = Ok (mixed_grads Q).
Proof. intros L. unfold strain_heat_fields, mixed_grads. rewrite D2. rewrite (five_q Q L). reflexivity. Qed.

(** The diffusive flux in direction [n]. *)
Definition flux_in (k : R) (u Q n : list R) : list R :=
  [0; 2 * k * (nth 0 Q 0 * nth 0 n 0 + nth 1 Q 0 * nth 1 n 0);
   2 * k * (nth 1 Q 0 * nth 0 n 0 + nth 2 Q 0 * nth 1 n 0);
   2 * k * (nth 0 u 0 * (nth 0 Q 0 * nth 0 n 0 + nth 1 Q 0 * nth 1 n 0) + nth 1 u 0 * (nth 1 Q 0 * nth 0 n 0 + nth 2 Q 0 * nth 1 n 0))
   + k / pr * (nth 3 Q 0 * nth 0 n 0 + nth 4 Q 0 * nth 1 n 0)].

Lemma flux_ok st Q n : valid st -> length (st_u st) = 2%nat -> length Q = 5%nat -> length n = 2%nat -> re <> 0 -> pr <> 0 ->
  viscosity cfg (full_fields cfg st) = Ok mu ->
  exists F, get_diffusive_flux cfg false (full_fields cfg st) (mixed_grads Q) = Ok F /\ mvmul F n = flux_in (mu / re) (st_u st) Q n.
Proof.
  intros V Lu LQ Ln R0 P0 Em. unfold get_diffusive_flux, velocity, deviatoric_stress_tensor, heat_flux, strain_rate_tensor.
  cbn [full_fields f_u equation bind]. rewrite Em, Er, Ep. cbn [bind equation mixed_grads g_eps g_T].
  eexists. split; [reflexivity|]. rewrite (two_u _ Lu), (two_u _ Ln). unfold mvmul. cbn. unfold entry, flux_in. cbn.
  apply f_equal2; [ring|]. apply f_equal2; [field; trivial|]. apply f_equal2; [field; trivial|]. apply f_equal2; [field; split; trivial|reflexivity].
Qed.

Lemma conservative_jacobian_ok st Q n : valid st -> length (st_u st) = 2%nat -> length Q = 5%nat -> length n = 2%nat -> re <> 0 ->
  viscosity cfg (full_fields cfg st) = Ok mu ->
  exists J, conservative_diffusive_jacobian cfg (full_fields cfg st) (mixed_grads Q) n = Ok J /\
    forall dU, length dU = 4%nat ->
      let w i := 2 * (mu / re) * traction Q n i in
      mvmul J dU = [0; 0; 0; (w 0%nat * (nth 1 dU 0 - nth 0 (st_u st) 0 * nth 0 dU 0) + w 1%nat * (nth 2 dU 0 - nth 1 (st_u st) 0 * nth 0 dU 0)) / st_rho st].
Proof.
  intros V Lu LQ Ln R0 Em. unfold conservative_diffusive_jacobian, conservative_diffusive_jacobian_x, conservative_diffusive_jacobian_y, density, eos_density, deviatoric_stress_tensor, strain_rate_tensor.
  rewrite D2, Em, Er. change (2 =? 3)%nat with false. cbn iota. cbn [full_fields f_u f_rho equation bind mixed_grads g_eps]. rewrite (two_u _ Lu). cbn [unpack2 bind fst snd].
  eexists. split; [reflexivity|]. intros dU L. rewrite (four_q _ L), (two_u _ Ln). unfold mvmul, traction. cbn. unfold entry. cbn. destruct V as [V1 V2].
  apply f_equal2; [ring|]. apply f_equal2; [ring|]. apply f_equal2; [ring|]. apply f_equal2; [field; split; [exact R0|lra]|reflexivity].
Qed.

Lemma mixed_jacobian_ok st n : valid st -> length (st_u st) = 2%nat -> length n = 2%nat -> re <> 0 -> pr <> 0 ->
  viscosity cfg (full_fields cfg st) = Ok mu ->
  exists K, mixed_diffusive_jacobian cfg (full_fields cfg st) n = Ok K /\
    forall dQ, length dQ = 5%nat -> mvmul K dQ = flux_in (mu / re) (st_u st) dQ n.
Proof.
  intros V Lu Ln R0 P0 Em. unfold mixed_diffusive_jacobian, mixed_diffusive_jacobian_x, mixed_diffusive_jacobian_y.
  rewrite D2, Em, Er, Ep. change (2 =? 3)%nat with false. cbn iota. cbn [full_fields f_u bind]. rewrite (two_u _ Lu). cbn [unpack2 bind fst snd].
  eexists. split; [reflexivity|]. intros dQ L. rewrite (five_q _ L), (two_u _ Ln). unfold mvmul, flux_in. cbn. unfold entry. cbn.
  apply f_equal2; [ring|]. apply f_equal2; [field; trivial|]. apply f_equal2; [field; trivial|]. apply f_equal2; [field; split; trivial|reflexivity].
Qed.
End Local.

(** Along any line through a flow the derivative of the diffusive flux is the conservative Jacobian times the derivative
    of the unknowns, plus the mixed Jacobian times the derivative of strain rate and temperature gradient, plus what a
    change of the viscosity contributes. *)
Theorem c64_derivative : forall cfg st Q x0 dU dQ n re pr mu dmu, 1 < s_gamma cfg -> s_dim cfg = 2%nat -> flow_line (s_gamma cfg) st Q x0 dU dQ -> length n = 2%nat ->
  reference_reynolds_number cfg = Ok re -> prandtl_number cfg = Ok pr -> re <> 0 -> pr <> 0 ->
  (forall x V, get_conservative_fields cfg (conservative_list (s_gamma cfg) (st x)) = Ok V -> viscosity cfg V = Ok (mu x)) -> is_derive mu x0 dmu -> mu x0 <> 0 ->
  exists F V q J K, (forall x, exists Vx qx, get_conservative_fields cfg (conservative_list (s_gamma cfg) (st x)) = Ok Vx /\ strain_heat_fields cfg (Q x) = Ok qx /\ get_diffusive_flux cfg false Vx qx = Ok (F x)) /\
    get_conservative_fields cfg (conservative_list (s_gamma cfg) (st x0)) = Ok V /\ strain_heat_fields cfg (Q x0) = Ok q /\
    conservative_diffusive_jacobian cfg V q n = Ok J /\ mixed_diffusive_jacobian cfg V n = Ok K /\
    forall i, (i < 4)%nat -> is_derive (fun x => nth i (mvmul (F x) n) 0) x0 (nth i (mvmul J dU) 0 + nth i (mvmul K dQ) 0 + dmu / mu x0 * nth i (mvmul (F x0) n) 0).
Proof.
  intros cfg st Q x0 dU dQ n re pr mu dmu G D2 (Hs & LU & LQ & HU & HQ) Ln Er Ep R0 P0 Hm Dm M0.
  assert (HV : forall x, get_conservative_fields cfg (conservative_list (s_gamma cfg) (st x)) = Ok (full_fields cfg (st x))).
  { intros x. destruct (Hs x) as (V1 & L1 & _). apply fields_ok; trivial. congruence. }
  assert (Hmu : forall x, viscosity cfg (full_fields cfg (st x)) = Ok (mu x)) by (intros x; apply (Hm x), HV).
  set (F := fun x => match get_diffusive_flux cfg false (full_fields cfg (st x)) (mixed_grads (Q x)) with Ok f => f | Err _ => idm 0 end).
  assert (HF : forall x, get_diffusive_flux cfg false (full_fields cfg (st x)) (mixed_grads (Q x)) = Ok (F x) /\ mvmul (F x) n = flux_in pr (mu x / re) (st_u (st x)) (Q x) n).
  { intros x. destruct (Hs x) as (V1 & L1 & L2). destruct (flux_ok cfg (mu x) re pr Er Ep (st x) (Q x) n V1 L1 L2 Ln R0 P0 (Hmu x)) as (f & E & H). unfold F. rewrite E. split; [reflexivity|exact H]. }
  destruct (Hs x0) as (V0 & L1 & L2).
  destruct (conservative_jacobian_ok cfg (mu x0) re D2 Er (st x0) (Q x0) n V0 L1 L2 Ln R0 (Hmu x0)) as (J & EJ & HJ).
  destruct (mixed_jacobian_ok cfg (mu x0) re pr D2 Er Ep (st x0) n V0 L1 Ln R0 P0 (Hmu x0)) as (K & EK & HK).
  exists F, (full_fields cfg (st x0)), (mixed_grads (Q x0)), J, K.
  split. { intros x. exists (full_fields cfg (st x)), (mixed_grads (Q x)). split; [apply HV|]. split; [apply mixed_fields_ok; [exact D2|apply Hs]|apply HF]. }
  split; [apply HV|]. split; [now apply mixed_fields_ok|]. split; [exact EJ|]. split; [exact EK|].
  intros i I. rewrite (HJ dU LU), (HK dQ LQ), (proj2 (HF x0)).
  apply (is_derive_ext (fun x => nth i (flux_in pr (mu x / re) (st_u (st x)) (Q x) n) 0)); [intros x; now rewrite (proj2 (HF x))|].
  set (r := fun x => st_rho (st x)). set (m := fun x => st_rho (st x) * nth 0 (st_u (st x)) 0). set (l := fun x => st_rho (st x) * nth 1 (st_u (st x)) 0).
  assert (Dr : is_derive r x0 (nth 0 dU 0)) by (apply (HU 0%nat); lia).
  assert (Dx : is_derive m x0 (nth 1 dU 0)) by (apply (HU 1%nat); lia).
  assert (Dy : is_derive l x0 (nth 2 dU 0)) by (apply (HU 2%nat); lia).
  set (q0 := fun x => nth 0 (Q x) 0). set (q1 := fun x => nth 1 (Q x) 0). set (q2 := fun x => nth 2 (Q x) 0). set (q3 := fun x => nth 3 (Q x) 0). set (q4 := fun x => nth 4 (Q x) 0).
  assert (D0 : is_derive q0 x0 (nth 0 dQ 0)) by (apply (HQ 0%nat); lia).
  assert (D1 : is_derive q1 x0 (nth 1 dQ 0)) by (apply (HQ 1%nat); lia).
  assert (D2' : is_derive q2 x0 (nth 2 dQ 0)) by (apply (HQ 2%nat); lia).
  assert (D3 : is_derive q3 x0 (nth 3 dQ 0)) by (apply (HQ 3%nat); lia).
  assert (D4 : is_derive q4 x0 (nth 4 dQ 0)) by (apply (HQ 4%nat); lia).
  assert (Rp : forall x, st_rho (st x) <> 0) by (intros x; destruct (Hs x) as ((? & _) & _); lra).
  assert (Ux : forall x, nth 0 (st_u (st x)) 0 = m x / r x) by (intros x; unfold m, r; field; apply Rp).
  assert (Uy : forall x, nth 1 (st_u (st x)) 0 = l x / r x) by (intros x; unfold l, r; field; apply Rp).
  set (a := nth 0 n 0). set (b := nth 1 n 0).
  apply (is_derive_ext (fun x => nth i [0; 2 * (mu x / re) * (q0 x * a + q1 x * b); 2 * (mu x / re) * (q1 x * a + q2 x * b);
    2 * (mu x / re) * (m x / r x * (q0 x * a + q1 x * b) + l x / r x * (q1 x * a + q2 x * b)) + mu x / re / pr * (q3 x * a + q4 x * b)] 0)).
  { intros x. unfold flux_in. rewrite Ux, Uy. reflexivity. }
  assert (Rx : r x0 <> 0) by apply Rp. unfold traction, flux_in. fold a b. rewrite (Ux x0), (Uy x0). change (st_rho (st x0)) with (r x0).
  change (nth 0 (Q x0) 0) with (q0 x0). change (nth 1 (Q x0) 0) with (q1 x0). change (nth 2 (Q x0) 0) with (q2 x0). change (nth 3 (Q x0) 0) with (q3 x0). change (nth 4 (Q x0) 0) with (q4 x0).
  clearbody r m l q0 q1 q2 q3 q4 a b. clear HF HV Hm Hmu HU HQ HJ HK EJ EK Ux Uy Rp.
  pose proof (is_derive_unique _ _ _ Dr) as Ur. pose proof (is_derive_unique _ _ _ Dx) as Um. pose proof (is_derive_unique _ _ _ Dy) as Ul.
  pose proof (is_derive_unique _ _ _ D0) as U0. pose proof (is_derive_unique _ _ _ D1) as U1. pose proof (is_derive_unique _ _ _ D2') as U2. pose proof (is_derive_unique _ _ _ D3) as U3. pose proof (is_derive_unique _ _ _ D4) as U4.
  pose proof (is_derive_unique _ _ _ Dm) as Umu.
  assert (Ex : ex_derive r x0 /\ ex_derive m x0 /\ ex_derive l x0 /\ ex_derive q0 x0 /\ ex_derive q1 x0 /\ ex_derive q2 x0 /\ ex_derive q3 x0 /\ ex_derive q4 x0 /\ ex_derive mu x0).
  { repeat match goal with |- _ /\ _ => split end; eexists; eassumption. }
  destruct Ex as (X1 & X2 & X3 & X4 & X5 & X6 & X7 & X8 & X9).
  four i I; cbn [nth]; auto_derive; try (repeat match goal with |- _ /\ _ => split end; trivial; fail);
    repeat match goal with |- context [Derive (fun x => ?f x) x0] => change (fun x => f x) with f end; rewrite ?Ur, ?Um, ?Ul, ?U0, ?U1, ?U2, ?U3, ?U4, ?Umu; field; repeat split; trivial.
Qed.
Print Assumptions c64_derivative.

(** For constant viscosity the two Jacobians are all of the derivative. *)
Theorem c64_constant : forall cfg st Q x0 dU dQ n re pr, 1 < s_gamma cfg -> s_dim cfg = 2%nat -> s_law cfg = Constant -> flow_line (s_gamma cfg) st Q x0 dU dQ -> length n = 2%nat ->
  reference_reynolds_number cfg = Ok re -> prandtl_number cfg = Ok pr -> re <> 0 -> pr <> 0 ->
  exists F V q J K, (forall x, exists Vx qx, get_conservative_fields cfg (conservative_list (s_gamma cfg) (st x)) = Ok Vx /\ strain_heat_fields cfg (Q x) = Ok qx /\ get_diffusive_flux cfg false Vx qx = Ok (F x)) /\
    get_conservative_fields cfg (conservative_list (s_gamma cfg) (st x0)) = Ok V /\ strain_heat_fields cfg (Q x0) = Ok q /\
    conservative_diffusive_jacobian cfg V q n = Ok J /\ mixed_diffusive_jacobian cfg V n = Ok K /\
    forall i, (i < 4)%nat -> is_derive (fun x => nth i (mvmul (F x) n) 0) x0 (nth i (mvmul J dU) 0 + nth i (mvmul K dQ) 0).
Proof.
  intros cfg st Q x0 dU dQ n re pr G D2 La Fl Ln Er Ep R0 P0.
  destruct (c64_derivative cfg st Q x0 dU dQ n re pr (fun _ => 1) 0 G D2 Fl Ln Er Ep R0 P0) as (F & V & q & J & K & H1 & H2 & H3 & H4 & H5 & H6).
  - intros x V _. unfold viscosity, law_viscosity. rewrite La. reflexivity.
  - apply (is_derive_const 1 x0).
  - lra.
  - exists F, V, q, J, K. repeat (split; [assumption|]). intros i I. specialize (H6 i I).
    replace (nth i (mvmul J dU) 0 + nth i (mvmul K dQ) 0) with (nth i (mvmul J dU) 0 + nth i (mvmul K dQ) 0 + 0 / 1 * nth i (mvmul (F x0) n) 0) by field. exact H6.
Qed.
Print Assumptions c64_constant.

(** With Sutherland's law they are not: heating the gas at rest changes the stress, which the Jacobians do not see. *)
Theorem c64_viscosity_refuted : forall cfg meas n Q re pr, 1 < s_gamma cfg -> s_dim cfg = 2%nat -> 0 < s_mach cfg -> s_law cfg = Sutherland meas -> 0 <= meas -> 0 < s_ref_T cfg ->
  reference_reynolds_number cfg = Ok re -> prandtl_number cfg = Ok pr -> re <> 0 -> pr <> 0 -> length n = 2%nat -> length Q = 5%nat ->
  exists st dU F V q J K, flow_line (s_gamma cfg) st (fun _ => Q) 0 dU (repeat 0 5) /\
    (forall x, exists Vx, get_conservative_fields cfg (conservative_list (s_gamma cfg) (st x)) = Ok Vx /\ get_diffusive_flux cfg false Vx q = Ok (F x)) /\
    get_conservative_fields cfg (conservative_list (s_gamma cfg) (st 0)) = Ok V /\ strain_heat_fields cfg Q = Ok q /\
    conservative_diffusive_jacobian cfg V q n = Ok J /\ mixed_diffusive_jacobian cfg V n = Ok K /\
    forall i, (i = 1 \/ i = 2)%nat -> nth i (mvmul J dU) 0 + nth i (mvmul K (repeat 0 5)) 0 = 0 /\
      (traction Q n (i - 1) <> 0 -> exists d, is_derive (fun x => nth i (mvmul (F x) n) 0) 0 d /\ d <> 0).
Proof.
  intros cfg meas n Q re pr G D2 M La S0 Rf Er Ep R0 P0 Ln LQ. pose proof (farfield_temperature_pos cfg G M) as Tp.
  set (Ti := farfield_temperature cfg) in *. set (g := s_gamma cfg) in *.
  set (st := fun x => mk_state 1 [0; 0] (Ti * (g - 1) / g * exp x)). set (dU := [0; 0; 0; Ti / g]).
  set (mu := fun x => exp x * sqrt (exp x) * ((s_ref_T cfg + meas) / (exp x * s_ref_T cfg + meas))). set (dmu := 3 / 2 - s_ref_T cfg / (s_ref_T cfg + meas)).
  assert (Ep0 : forall x, 0 < exp x) by apply exp_pos.
  assert (Fl : flow_line g st (fun _ => Q) 0 dU (repeat 0 5)).
  { split; [|split; [reflexivity|split; [reflexivity|split]]].
    - intros x. split; [|split; [reflexivity|exact LQ]]. split; cbn; [lra|]. apply Rmult_lt_0_compat; [|apply Ep0]. apply Rdiv_lt_0_compat; [|lra]. apply Rmult_lt_0_compat; lra.
    - intros k K. four k K; unfold conservative; cbn.
      + apply (is_derive_const 1 0).
      + apply (is_derive_const (1 * 0) 0).
      + apply (is_derive_const (1 * 0) 0).
      + unfold q_rho_E, q_E, q_Ei, q_rho_Ei, q_Ek. cbn. auto_derive; [trivial|]. rewrite exp_0. field. lra.
    - intros k K. rewrite nth_repeat. apply (is_derive_const (nth k Q 0) 0). }
  assert (HT : forall x, q_T g (st x) = Ti * exp x) by (intros x; unfold q_T, st; cbn; field; lra).
  assert (Hd : forall x, 0 < exp x * s_ref_T cfg + meas) by (intros x; apply Rplus_lt_le_0_compat; [apply Rmult_lt_0_compat; [apply Ep0|lra]|exact S0]).
  assert (Hmu : forall x V, get_conservative_fields cfg (conservative_list g (st x)) = Ok V -> viscosity cfg V = Ok (mu x)).
  { intros x V E. destruct (proj1 Fl x) as (V1 & L1 & _). unfold g in E. rewrite fields_ok in E by (trivial; congruence). apply ok_inj in E. subst V.
    rewrite (sutherland_value cfg meas _ (Ti * exp x) G M La S0 Rf); [|cbn; fold g; now rewrite HT|apply Rmult_lt_0_compat; [lra|apply Ep0]].
    f_equal. unfold sutherland, mu. fold Ti. replace (Ti * exp x / Ti * s_ref_T cfg) with (exp x * s_ref_T cfg) by (field; lra).
    replace (exp x * s_ref_T cfg / s_ref_T cfg) with (exp x) by (field; lra). reflexivity. }
  assert (M0 : mu 0 = 1) by (unfold mu; rewrite exp_0, sqrt_1; field; lra).
  assert (Dm : is_derive mu 0 dmu).
  { unfold mu, dmu. specialize (Hd 0). rewrite exp_0 in Hd. auto_derive; [rewrite exp_0; repeat split; lra|]. rewrite exp_0, sqrt_1. field. lra. }
  destruct (c64_derivative cfg st (fun _ => Q) 0 dU (repeat 0 5) n re pr mu dmu G D2 Fl Ln Er Ep R0 P0 Hmu Dm ltac:(rewrite M0; lra)) as (F & V & q & J & K & H1 & H2 & H3 & H4 & H5 & H6).
  exists st, dU, F, V, q, J, K. split; [exact Fl|]. split; [intros x; destruct (H1 x) as (Vx & qx & A & B & C); rewrite H3 in B; apply ok_inj in B; subst qx; now exists Vx|].
  split; [exact H2|]. split; [exact H3|]. split; [exact H4|]. split; [exact H5|].
  destruct (proj1 Fl 0) as (V0 & L0 & _).
  assert (EV : V = full_fields cfg (st 0)) by (unfold g in H2; rewrite fields_ok in H2 by (trivial; congruence); now apply ok_inj in H2). subst V.
  assert (Eq : q = mixed_grads Q) by (rewrite (mixed_fields_ok cfg D2 Q LQ) in H3; now apply ok_inj in H3). subst q.
  pose proof (Hmu 0 _ H2) as Hv.
  destruct (conservative_jacobian_ok cfg (mu 0) re D2 Er (st 0) Q n V0 L0 LQ Ln R0 Hv) as (J' & EJ & HJ). rewrite H4 in EJ. apply ok_inj in EJ. subst J'.
  destruct (mixed_jacobian_ok cfg (mu 0) re pr D2 Er Ep (st 0) n V0 L0 Ln R0 P0 Hv) as (K' & EK & HK). rewrite H5 in EK. apply ok_inj in EK. subst K'.
  destruct (flux_ok cfg (mu 0) re pr Er Ep (st 0) Q n V0 L0 LQ Ln R0 P0 Hv) as (F0 & EF & HF).
  destruct (H1 0) as (Vx & qx & A & B & C). rewrite H2 in A. apply ok_inj in A. subst Vx. rewrite H3 in B. apply ok_inj in B. subst qx. rewrite C in EF. apply ok_inj in EF. subst F0.
  assert (Z : forall i, (i = 1 \/ i = 2)%nat -> nth i (mvmul J dU) 0 + nth i (mvmul K (repeat 0 5)) 0 = 0).
  { intros i [-> | ->]; rewrite (HJ dU eq_refl), (HK (repeat 0 5) eq_refl); unfold flux_in; cbn; ring. }
  intros i I. split; [now apply Z|]. intros Tr. exists (dmu / mu 0 * nth i (mvmul (F 0) n) 0). split.
  - assert (Ii : (i < 4)%nat) by lia. pose proof (H6 i Ii) as H. rewrite (Z i I), Rplus_0_l in H. exact H.
  - rewrite HF, M0. assert (Dp : dmu <> 0).
    { unfold dmu. assert (s_ref_T cfg / (s_ref_T cfg + meas) <= 1) by (apply Rle_div_l; lra). lra. }
    unfold traction in Tr. destruct I as [-> | ->]; cbn [Nat.sub] in Tr; unfold flux_in; cbn [nth];
      (apply Rmult_integral_contrapositive_currified; [apply Rmult_integral_contrapositive_currified; [exact Dp|apply Rinv_neq_0_compat; lra]|]);
      (apply Rmult_integral_contrapositive_currified; [|exact Tr]); (apply Rmult_integral_contrapositive_currified; [lra|]); (apply Rmult_integral_contrapositive_currified; [lra|now apply Rinv_neq_0_compat]).
Qed.
Print Assumptions c64_viscosity_refuted.

(** ** The viscous terms of the characteristic condition *)

(** What is computed: the derivative of the diffusive flux along the boundary, that of the unknowns in the normal
    direction, and the part of the normal derivative of the viscous flux that the condition keeps - apart from a wrong
    entry (xy instead of yy) of the rotated strain rate, which counts with the second component of the normal. *)
Theorem c64_terms : forall cfg tg st Q dU dQ n t n0 n1 t0 t1 re pr mu V, 1 < s_gamma cfg -> s_dim cfg = 2%nat -> valid st -> length (st_u st) = 2%nat -> length Q = 5%nat ->
  rows dU = 4%nat -> cols dU = 2%nat -> length (entries dU) = 8%nat -> rows dQ = 5%nat -> cols dQ = 2%nat -> length (entries dQ) = 10%nat ->
  unit2 n n0 n1 -> unit2 t t0 t1 -> n0 * t0 + n1 * t1 = 0 ->
  reference_reynolds_number cfg = Ok re -> prandtl_number cfg = Ok pr -> re <> 0 -> pr <> 0 ->
  get_conservative_fields cfg (conservative_list (s_gamma cfg) st) = Ok V -> viscosity cfg V = Ok mu ->
  exists q Jt Jn Kt S, strain_heat_fields cfg Q = Ok q /\ conservative_diffusive_jacobian cfg V q t = Ok Jt /\ conservative_diffusive_jacobian cfg V q n = Ok Jn /\ mixed_diffusive_jacobian cfg V t = Ok Kt /\
    cbc_viscous_terms cfg MStrainHeat tg (conservative_list (s_gamma cfg) st) Q dU dQ n t = Ok S /\ length S = 4%nat /\
    let k := mu / re in
    let e i j := match tg with
                 | TOutflow => along (mvmul dQ n) n n * (nth i n 0 * nth j n 0) + along (mvmul dQ n) n t * (nth i t 0 * nth j t 0)
                 | _ => along (mvmul dQ n) n t * (nth i n 0 * nth j t 0 + nth i t 0 * nth j n 0 + nth i t 0 * nth j t 0)
                 end in
    let err := 2 * k * n1 * (e 0%nat 1%nat - e 1%nat 1%nat) in
    forall i, (i < 4)%nat -> nth i S 0 =
      nth i (mvmul Jt (mvmul dU t)) 0 + nth i (mvmul Kt (mvmul dQ t)) 0 + nth i (mvmul Jn (mvmul dU n)) 0 + kept tg k (k / pr) (st_u st) (mvmul dQ n) n t i
      + match i with 2%nat => err | 3%nat => nth 1 (st_u st) 0 * err | _ => 0 end.
Proof.
  intros cfg tg st Q dU dQ n t n0 n1 t0 t1 re pr mu V G D2 Va Lu LQ U1 U2 U3 Q1 Q2 Q3 [-> N] [-> T] O Er Ep R0 P0 EV Em.
  rewrite fields_ok in EV by (trivial; congruence). apply ok_inj in EV. subst V.
  destruct (conservative_jacobian_ok cfg mu re D2 Er st Q [t0; t1] Va Lu LQ eq_refl R0 Em) as (Jt & EJt & HJt).
  destruct (conservative_jacobian_ok cfg mu re D2 Er st Q [n0; n1] Va Lu LQ eq_refl R0 Em) as (Jn & EJn & HJn).
  destruct (mixed_jacobian_ok cfg mu re pr D2 Er Ep st [t0; t1] Va Lu eq_refl R0 P0 Em) as (Kt & EKt & HKt).
  destruct (mixed_jacobian_ok cfg mu re pr D2 Er Ep st [n0; n1] Va Lu eq_refl R0 P0 Em) as (Kn & EKn & HKn).
  unfold cbc_viscous_terms, strain_heat_viscous_terms. rewrite D2. change (2 =? 3)%nat with false. cbn iota.
  rewrite fields_ok by (trivial; congruence). rewrite (mixed_fields_ok cfg D2 Q LQ). cbn [bind].
  rewrite EJt, EJn, EKt, EKn. cbn [bind].
  exists (mixed_grads Q), Jt, Jn, Kt.
  assert (LdU : forall x, length (mvmul dU x) = 4%nat) by (intros x; rewrite mvmul_length; exact U1).
  assert (LdQ : forall x, length (mvmul dQ x) = 5%nat) by (intros x; rewrite mvmul_length; exact Q1).
  set (g := mvmul dQ [n0; n1]) in *. set (h := mvmul dQ [t0; t1]) in *.
  pose proof (HJt _ (LdU [t0; t1])) as ht. pose proof (HJn _ (LdU [n0; n1])) as hn. pose proof (HKt _ (LdQ [t0; t1])) as kt. fold h in kt. cbv zeta in ht, hn. rewrite ht, hn, kt.
  assert (KN : forall a b c d e, mvmul Kn [a; b; c; d; e] = flux_in pr (mu / re) (st_u st) [a; b; c; d; e] [n0; n1]) by (intros; now apply HKn).
  assert (Rt : mtrans (mk_matrix 2 2 ([n0; n1] ++ [t0; t1])) = mk_matrix 2 2 [n0; t0; n1; t1]) by reflexivity. rewrite Rt.
  assert (Rtt : mtrans (mk_matrix 2 2 [n0; t0; n1; t1]) = mk_matrix 2 2 [n0; n1; t0; t1]) by reflexivity. rewrite Rtt.
  assert (P22 : forall a b c d e f k l, mmul (mk_matrix 2 2 [a; b; c; d]) (mk_matrix 2 2 [e; f; k; l]) = mk_matrix 2 2 [a * e + b * k; a * f + b * l; c * e + d * k; c * f + d * l]).
  { intros. unfold mmul, tabulate. cbn [rows cols entries seq flat_map map app]. unfold entry, rsum. cbn [cols entries fold_right nth Nat.mul Nat.add]. apply (f_equal (mk_matrix 2 2)). apply f_equal2; [ring|]. apply f_equal2; [ring|]. apply f_equal2; [ring|]. apply f_equal2; [ring|reflexivity]. }
  set (g0 := nth 0 g 0). set (g1 := nth 1 g 0). set (g2 := nth 2 g 0). set (g3 := nth 3 g 0). set (g4 := nth 4 g 0).
  assert (Sg : exists sg, sg * sg = 1 /\ t0 = - sg * n1 /\ t1 = sg * n0).
  { exists (n0 * t1 - n1 * t0). split; [|split].
    - transitivity ((n0 * n0 + n1 * n1) * (t0 * t0 + t1 * t1) - (n0 * t0 + n1 * t1) * (n0 * t0 + n1 * t1)); [ring|]. rewrite N, T, O. ring.
    - transitivity ((n0 * n0 + n1 * n1) * t0 - n0 * (n0 * t0 + n1 * t1)); [rewrite N, O; ring|ring].
    - transitivity ((n0 * n0 + n1 * n1) * t1 - n1 * (n0 * t0 + n1 * t1)); [rewrite N, O; ring|ring]. }
  destruct Sg as (sg & S2 & -> & ->). assert (N' : n0 * n0 = 1 - n1 * n1) by lra.
  assert (M2 : forall a b c d x y, mvmul (mk_matrix 2 2 [a; b; c; d]) [x; y] = [a * x + b * y; c * x + d * y]).
  { intros. unfold mvmul. cbn. unfold entry. cbn. apply f_equal2; [ring|]. apply f_equal2; [ring|reflexivity]. }
  assert (Rx := proj1 Va). set (u0 := nth 0 (st_u st) 0). set (u1 := nth 1 (st_u st) 0).
  destruct tg; rewrite ?P22; unfold flat; cbn [entries nth]; rewrite ?P22, ?M2; cbn [entries nth]; rewrite KN;
    (eexists; split; [first [reflexivity|apply mixed_fields_ok; assumption]|]); (split; [exact EJt|]); (split; [exact EJn|]); (split; [first [exact EKt|reflexivity]|]); (split; [reflexivity|]); (split; [reflexivity|]);
    cbv zeta; intros i I; (four i I; unfold along, kept, kept_stress, kept_heat, along, flux_in, traction; cbn [vadd nth]; fold u0 u1 g0 g1 g2 g3 g4; try ring; try (field [N' S2]; repeat split; trivial; lra)).
Qed.
Print Assumptions c64_terms.

(** The hypotheses on the unknowns and their derivatives at a point of the boundary. *)
Definition boundary_point (cfg : settings) (st : state) (Q : list R) (dU dQ : matrix) (n t : list R) (n0 n1 t0 t1 : R) : Prop :=
  valid st /\ length (st_u st) = 2%nat /\ length Q = 5%nat /\
  rows dU = 4%nat /\ cols dU = 2%nat /\ length (entries dU) = 8%nat /\ rows dQ = 5%nat /\ cols dQ = 2%nat /\ length (entries dQ) = 10%nat /\
  unit2 n n0 n1 /\ unit2 t t0 t1 /\ n0 * t0 + n1 * t1 = 0.

(** On a boundary that is a vertical line the terms are the derivative of the diffusive flux with the kept part. *)
Theorem c64_upright : forall cfg tg st Q dU dQ n t n0 t0 t1 re pr mu V, 1 < s_gamma cfg -> s_dim cfg = 2%nat -> boundary_point cfg st Q dU dQ n t n0 0 t0 t1 ->
  reference_reynolds_number cfg = Ok re -> prandtl_number cfg = Ok pr -> re <> 0 -> pr <> 0 ->
  get_conservative_fields cfg (conservative_list (s_gamma cfg) st) = Ok V -> viscosity cfg V = Ok mu ->
  exists q Jt Jn Kt S, strain_heat_fields cfg Q = Ok q /\ conservative_diffusive_jacobian cfg V q t = Ok Jt /\ conservative_diffusive_jacobian cfg V q n = Ok Jn /\ mixed_diffusive_jacobian cfg V t = Ok Kt /\
    cbc_viscous_terms cfg MStrainHeat tg (conservative_list (s_gamma cfg) st) Q dU dQ n t = Ok S /\ length S = 4%nat /\
    forall i, (i < 4)%nat -> nth i S 0 =
      nth i (mvmul Jt (mvmul dU t)) 0 + nth i (mvmul Kt (mvmul dQ t)) 0 + nth i (mvmul Jn (mvmul dU n)) 0 + kept tg (mu / re) (mu / re / pr) (st_u st) (mvmul dQ n) n t i.
Proof.
  intros cfg tg st Q dU dQ n t n0 t0 t1 re pr mu V G D2 (H1 & H2 & H3 & H4 & H5 & H6 & H7 & H8 & H9 & H10 & H11 & H12) Er Ep R0 P0 EV Em.
  destruct (c64_terms cfg tg st Q dU dQ n t n0 0 t0 t1 re pr mu V G D2 H1 H2 H3 H4 H5 H6 H7 H8 H9 H10 H11 H12 Er Ep R0 P0 EV Em) as (q & Jt & Jn & Kt & S & E1 & E2 & E3 & E4 & E5 & E6 & E7).
  exists q, Jt, Jn, Kt, S. repeat (split; [assumption|]). intros i I. cbv zeta in E7. rewrite (E7 i I). four i I; ring.
Qed.
Print Assumptions c64_upright.

(** On a horizontal outflow boundary the normal derivative of the normal stress, which is to be kept, is lost. *)
Theorem c64_terms_refuted : forall cfg st Q dU dQ n t n1 t0 t1 re pr mu V, 1 < s_gamma cfg -> s_dim cfg = 2%nat -> boundary_point cfg st Q dU dQ n t 0 n1 t0 t1 ->
  reference_reynolds_number cfg = Ok re -> prandtl_number cfg = Ok pr -> re <> 0 -> pr <> 0 -> mu <> 0 ->
  get_conservative_fields cfg (conservative_list (s_gamma cfg) st) = Ok V -> viscosity cfg V = Ok mu ->
  exists q Jt Jn Kt S, strain_heat_fields cfg Q = Ok q /\ conservative_diffusive_jacobian cfg V q t = Ok Jt /\ conservative_diffusive_jacobian cfg V q n = Ok Jn /\ mixed_diffusive_jacobian cfg V t = Ok Kt /\
    cbc_viscous_terms cfg MStrainHeat TOutflow (conservative_list (s_gamma cfg) st) Q dU dQ n t = Ok S /\
    nth 2 S 0 = nth 2 (mvmul Jt (mvmul dU t)) 0 + nth 2 (mvmul Kt (mvmul dQ t)) 0 + nth 2 (mvmul Jn (mvmul dU n)) 0 /\
    (nth 2 (mvmul dQ n) 0 <> 0 -> kept TOutflow (mu / re) (mu / re / pr) (st_u st) (mvmul dQ n) n t 2 <> 0).
Proof.
  intros cfg st Q dU dQ n t n1 t0 t1 re pr mu V G D2 (H1 & H2 & H3 & H4 & H5 & H6 & H7 & H8 & H9 & H10 & H11 & H12) Er Ep R0 P0 M0 EV Em.
  destruct (c64_terms cfg TOutflow st Q dU dQ n t 0 n1 t0 t1 re pr mu V G D2 H1 H2 H3 H4 H5 H6 H7 H8 H9 H10 H11 H12 Er Ep R0 P0 EV Em) as (q & Jt & Jn & Kt & S & E1 & E2 & E3 & E4 & E5 & E6 & E7).
  exists q, Jt, Jn, Kt, S. repeat (split; [assumption|]). cbv zeta in E7. destruct H10 as [-> N]. destruct H11 as [-> T].
  assert (N' : n1 * n1 = 1) by lra. assert (n1 <> 0) by nra. assert (T1 : t1 = 0) by nra. subst t1. split.
  - rewrite (E7 2%nat) by lia. unfold kept, kept_stress. cbn [nth]. set (a := along _ _ [0; n1]). set (b := along _ _ [t0; 0]). field [N']; trivial.
  - intros Z. unfold kept, kept_stress, along, traction. cbn [nth]. set (g := mvmul dQ [0; n1]) in *.
    replace (_ * _) with (2 * (mu / re) * nth 2 g 0 * n1) by (ring [N']).
    repeat apply Rmult_integral_contrapositive_currified; trivial; try lra. now apply Rinv_neq_0_compat.
Qed.
Print Assumptions c64_terms_refuted.

(** Without gradients there are no viscous terms, so a viscous condition acts like the inviscid one. *)
Theorem c64_uniform : forall cfg mm tg st Q dU dQ n t n0 n1 t0 t1 re pr mu V, 1 < s_gamma cfg -> s_dim cfg = 2%nat -> boundary_point cfg st Q dU dQ n t n0 n1 t0 t1 ->
  reference_reynolds_number cfg = Ok re -> prandtl_number cfg = Ok pr -> re <> 0 -> pr <> 0 ->
  get_conservative_fields cfg (conservative_list (s_gamma cfg) st) = Ok V -> viscosity cfg V = Ok mu ->
  (forall i j, entry dU i j = 0) -> (forall i j, entry dQ i j = 0) ->
  cbc_viscous_terms cfg mm tg (conservative_list (s_gamma cfg) st) Q dU dQ n t = Ok (repeat 0 4).
Proof.
  intros cfg mm tg st Q dU dQ n t n0 n1 t0 t1 re pr mu V G D2 (H1 & H2 & H3 & H4 & H5 & H6 & H7 & H8 & H9 & H10 & H11 & H12) Er Ep R0 P0 EV Em ZU ZQ.
  destruct mm; [unfold cbc_viscous_terms; rewrite D2; reflexivity| |unfold cbc_viscous_terms; rewrite D2; reflexivity].
  destruct (c64_terms cfg tg st Q dU dQ n t n0 n1 t0 t1 re pr mu V G D2 H1 H2 H3 H4 H5 H6 H7 H8 H9 H10 H11 H12 Er Ep R0 P0 EV Em) as (q & Jt & Jn & Kt & S & E1 & E2 & E3 & E4 & E5 & E6 & E7).
  rewrite E5. f_equal.
  assert (Z : forall m r (x : list R), (forall i j, entry m i j = 0) -> rows m = r -> mvmul m x = repeat 0 r).
  { intros m r x Zm Rm. apply nth_ext with (d := 0) (d' := 0); [rewrite mvmul_length, repeat_length; exact Rm|]. intros i I. rewrite mvmul_length in I. rewrite mvmul_total by exact I. rewrite nth_repeat.
    rewrite (total_ext _ (fun _ => 0)); [apply total_zero|]. intros k _. rewrite Zm. ring. }
  assert (Zv : forall m k i, nth i (mvmul m (repeat 0 k)) 0 = 0).
  { intros m k i. destruct (Nat.lt_ge_cases i (rows m)) as [I|I]; [|apply nth_overflow; rewrite mvmul_length; exact I]. rewrite mvmul_total by exact I. rewrite (total_ext _ (fun _ => 0)); [apply total_zero|]. intros j _. rewrite nth_repeat. ring. }
  cbv zeta in E7. rewrite !(Z dU 4%nat _ ZU H4), !(Z dQ 5%nat _ ZQ H7) in E7.
  assert (A : forall x y, along (repeat 0 5) x y = 0) by (intros; unfold along, traction; cbn; ring). 
  assert (Kp : forall i, kept tg (mu / re) (mu / re / pr) (st_u st) (repeat 0 5) n t i = 0).
  { intros i. destruct i as [|[|[|i]]]; unfold kept, kept_stress, kept_heat; rewrite ?A; cbn [nth repeat]; destruct tg; cbn; ring. }
  rewrite (four_q S E6). rewrite !E7 by lia. rewrite !Zv, !Kp, !A. destruct tg; cbn [repeat];
    (apply f_equal2; [ring|]; apply f_equal2; [ring|]; apply f_equal2; [ring|]; apply f_equal2; [ring|reflexivity]).
Qed.
Print Assumptions c64_uniform.

(** Only the strain-heat method has viscous terms, in two dimensions and with a law of viscosity. *)
Theorem c64_methods : forall cfg tg U Q dU dQ n t,
  cbc_viscous_terms cfg MInactive tg U Q dU dQ n t = Ok (repeat 0 (s_dim cfg + 2)) /\
  cbc_viscous_terms cfg MGradient tg U Q dU dQ n t = Ok (repeat 0 (s_dim cfg + 2)) /\
  (s_dim cfg = 3%nat -> cbc_viscous_terms cfg MStrainHeat tg U Q dU dQ n t = Err NotImplementedError) /\
  (forall V q, s_dim cfg = 2%nat -> s_law cfg = Inviscid -> get_conservative_fields cfg U = Ok V -> strain_heat_fields cfg Q = Ok q ->
     cbc_viscous_terms cfg MStrainHeat tg U Q dU dQ n t = Err TypeError).
Proof.
  intros cfg tg U Q dU dQ n t. split; [reflexivity|]. split; [reflexivity|]. split.
  - intros D. unfold cbc_viscous_terms, strain_heat_viscous_terms. rewrite D. reflexivity.
  - intros V q D La EV Eq. unfold cbc_viscous_terms, strain_heat_viscous_terms. rewrite D. change (2 =? 3)%nat with false. cbn iota. rewrite EV, Eq. cbn [bind].
    assert (Er : exists rho, density cfg V = Ok rho).
    { unfold get_conservative_fields in EV. repeat (apply bind_ok in EV as (? & _ & EV)). apply ok_inj in EV. subst V. eexists. reflexivity. }
    destruct Er as (rho & Er).
    assert (Ej : forall x, conservative_diffusive_jacobian cfg V q x = Err TypeError).
    { intros x. unfold conservative_diffusive_jacobian, conservative_diffusive_jacobian_x, deviatoric_stress_tensor, viscosity, law_viscosity. rewrite D, La, Er. reflexivity. }
    rewrite !Ej. destruct tg; reflexivity.
Qed.
Print Assumptions c64_methods.

(** ** Example: a gas in motion with a gradient of everything at a point of a vertical and of a horizontal boundary *)
Definition thick_air : settings := mk_settings (7 / 5) 1 10 (1 / 2) Aerodynamic Constant HLL 293 2.
Definition drifting : state := mk_state 2 [1; 3] 1.
Definition some_dU : matrix := mk_matrix 4 2 [1; 2; 3; 4; 5; 6; 7; 8].
Definition some_dQ : matrix := mk_matrix 5 2 [1; 2; 3; 4; 5; 6; 7; 8; 9; 10].

Example c64_example :
  boundary_point thick_air drifting [1; 0; 2; 0; 0] some_dU some_dQ [1; 0] [0; 1] 1 0 0 1 /\
  boundary_point thick_air drifting [1; 0; 2; 0; 0] some_dU some_dQ [0; 1] [-1; 0] 0 1 (-1) 0 /\
  reference_reynolds_number thick_air = Ok 10 /\ prandtl_number thick_air = Ok (1 / 2) /\
  viscosity thick_air (full_fields thick_air drifting) = Ok 1 /\
  flow_line (7 / 5) (fun x => mk_state (2 + x ^ 2) [1; 3] 1) (fun x => [x; 0; 2 * x; 0; 0]) 1 [2; 2; 6; 10] [1; 0; 2; 0; 0].
Proof.
  split; [|split; [|split; [|split; [|split]]]]; try reflexivity.
  - repeat split; cbn; lra.
  - repeat split; cbn; lra.
  - unfold reference_reynolds_number. cbn. f_equal. field.
  - split; [|split; [reflexivity|split; [reflexivity|split]]].
    + intros x. repeat split; cbn; try lra. pose proof (Rle_0_sqr x). unfold Rsqr in *. lra.
    + intros k K. assert (Z : forall x, 2 + x ^ 2 <> 0) by (intros x; pose proof (pow2_ge_0 x); lra). four k K; unfold conservative, q_rho_E, q_E, q_Ei, q_rho_Ei, q_Ek; cbn [Nat.eqb Nat.leb Nat.sub st_rho st_u st_p nth inner].
      * auto_derive; [trivial|ring].
      * auto_derive; [trivial|ring].
      * auto_derive; [trivial|ring].
      * apply (is_derive_ext (fun x => 1 / (7 / 5 - 1) + (2 + x ^ 2) * 5)); [intros x; match goal with |- ?a = ?b => change (@eq R a b) end; field; apply Z|]. auto_derive; [trivial|field].
    + intros k K. destruct k as [|[|[|[|[|k]]]]]; [| | | | |lia]; cbn [nth]; match goal with |- is_derive (fun _ => 0) ?x 0 => apply (is_derive_const 0 x) | _ => auto_derive; [trivial|ring] end.
Qed.
