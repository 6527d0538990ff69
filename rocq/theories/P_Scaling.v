(** C48: the farfield state.  C49: the laws of viscosity. *)
From Coq Require Import Reals List Arith Lia Lra Bool.
From Coquelicot Require Import Coquelicot.
From Verif Require Import Base M_Bla M_Flow S_Flow S_Scaling L_Flow P_Bla P_Eos.
Import ListNotations.
Open Scope R_scope.

Lemma sound_ok cfg : 0 < s_mach cfg -> scaling_speed_of_sound (s_scaling cfg) (s_mach cfg) = Ok (farfield_sound (s_scaling cfg) (s_mach cfg)).
Proof. intros M. unfold scaling_speed_of_sound. destruct (s_scaling cfg); try reflexivity. destruct Rle_dec; [lra|reflexivity]. Qed.

Lemma sound_pos sc Ma : 0 < Ma -> 0 < farfield_sound sc Ma.
Proof. intros M. destruct sc; cbn; try lra; apply Rdiv_lt_0_compat; lra. Qed.

(** The farfield state for a sound speed, a speed and a direction. *)
Definition far (g c v : R) (direction : list R) : state := mk_state 1 (vscale v (unit_vector direction)) (c ^ 2 / g).

Lemma far_sound g c v direction : 1 < g -> 0 < c -> q_c g (far g c v direction) = c.
Proof.
  intros G C. unfold q_c, far. cbn [st_p st_rho]. replace (g * (c ^ 2 / g) / 1) with (c * c) by (field; lra).
  rewrite sqrt_square; lra.
Qed.

Lemma far_speed g c v direction : 0 <= v -> inner direction direction <> 0 ->
  let s := far g c v direction in
  inner (st_u s) (st_u s) = v ^ 2 /\ sqrt (inner (st_u s) (st_u s)) = v /\ length (st_u s) = length direction /\
  exists k, 0 <= k /\ forall i, nth i (st_u s) 0 = k * nth i direction 0.
Proof.
  intros V N s. destruct (c40_unit_vector direction N) as (U1 & L & D & P).
  assert (E : inner (st_u s) (st_u s) = v ^ 2).
  { unfold s, far. cbn [st_u]. unfold vscale. change (map (Rmult v) (unit_vector direction)) with (map (fun b => v * b) (unit_vector direction)). rewrite inner_scale, U1. ring. }
  split; [exact E|]. split; [rewrite E; replace (v ^ 2) with (v * v) by ring; apply sqrt_square; exact V|].
  split; [unfold s, far; cbn [st_u]; unfold vscale; rewrite map_length; exact L|].
  exists (v / sqrt (inner direction direction)). split; [apply Rdiv_le_0_compat; lra|].
  intros i. unfold s, far. cbn [st_u]. rewrite vscale_nth, (D i). field. lra.
Qed.

Lemma farfield_value cfg direction : 1 < s_gamma cfg -> 0 < s_mach cfg -> length direction = s_dim cfg ->
  exists V, get_farfield_state cfg direction = Ok V /\
    describes (s_gamma cfg) (far (s_gamma cfg) (farfield_sound (s_scaling cfg) (s_mach cfg)) (farfield_speed (s_scaling cfg) (s_mach cfg)) direction) V /\
    forall f, In f [Rho; Uu; Pp; Tt; RhoE; RhoEi; RhoEk; Cc] -> has V f = true.
Proof.
  intros G M L. unfold get_farfield_state. rewrite (sound_ok cfg M). cbn [bind]. rewrite L, Nat.eqb_refl. cbn [negb].
  pose proof (sound_pos (s_scaling cfg) (s_mach cfg) M) as C. set (c := farfield_sound (s_scaling cfg) (s_mach cfg)) in *.
  eexists. split; [cbn; reflexivity|]. split; [|intros f I; cbn [In] in I; repeat destruct I as [<-|I]; try reflexivity; contradiction].
  set (g := s_gamma cfg) in *. unfold describes, scaling_velocity, scaling_density.
  change (velocity_magnitude (s_scaling cfg) (s_mach cfg)) with (farfield_speed (s_scaling cfg) (s_mach cfg)). set (v := farfield_speed (s_scaling cfg) (s_mach cfg)).
  repeat match goal with |- _ /\ _ => split end; intros y H; try discriminate H; cbn in H; injection H as <-.
  - reflexivity.
  - reflexivity.
  - unfold far. cbn [st_p]. field. lra.
  - unfold q_T, far. cbn [st_p st_rho]. field. lra.
  - unfold q_rho_E, q_E, q_Ei, q_rho_Ei, q_Ek, far. cbn [st_p st_rho st_u]. field. lra.
  - unfold q_rho_Ei, far. cbn [st_p]. field. lra.
  - unfold q_rho_Ek, q_Ek, far. cbn [st_rho st_u]. field.
  - symmetry. apply far_sound; assumption.
Qed.

(** The farfield state has unit density, the documented sound speed and speed, and its fields obey the gas law. *)
Theorem c48_state : forall cfg direction, 1 < s_gamma cfg -> 0 < s_mach cfg -> length direction = s_dim cfg -> inner direction direction <> 0 ->
  exists V s, get_farfield_state cfg direction = Ok V /\ describes (s_gamma cfg) s V /\
    is_farfield (s_gamma cfg) (s_scaling cfg) (s_mach cfg) direction s /\
    sqrt (inner (st_u s) (st_u s)) / q_c (s_gamma cfg) s = s_mach cfg /\
    forall f, In f [Rho; Uu; Pp; Tt; RhoE; RhoEi; RhoEk; Cc] -> has V f = true.
Proof.
  intros cfg direction G M L N. destruct (farfield_value cfg direction G M L) as (V & E & D & H).
  pose proof (sound_pos (s_scaling cfg) (s_mach cfg) M) as C.
  assert (V0 : 0 <= farfield_speed (s_scaling cfg) (s_mach cfg)) by (destruct (s_scaling cfg); cbn; try lra; apply Rdiv_le_0_compat; lra).
  pose proof (far_speed (s_gamma cfg) (farfield_sound (s_scaling cfg) (s_mach cfg)) _ direction V0 N) as (_ & Sp & Lu & K).
  exists V. eexists. split; [exact E|]. split; [exact D|]. split; [|split; [|exact H]].
  - split; [|split; [reflexivity|split; [apply far_sound; assumption|split; [exact Sp|split; [exact Lu|exact K]]]]].
    split; unfold far; cbn [st_rho st_p]; [lra|]. apply Rdiv_lt_0_compat; [apply pow_lt; exact C|lra].
  - rewrite Sp, far_sound by assumption. destruct (s_scaling cfg); cbn; field; lra.
Qed.
Print Assumptions c48_state.

(** Temperature and pressure are the documented ones for the aerodynamic and the acoustic scaling ... *)
Theorem c48_documented : forall cfg direction V, 1 < s_gamma cfg -> 0 < s_mach cfg -> s_scaling cfg <> Aeroacoustic -> get_farfield_state cfg direction = Ok V ->
  f_T V = Some (documented_temperature (s_gamma cfg) (s_scaling cfg) (s_mach cfg)) /\ f_p V = Some (documented_pressure (s_gamma cfg) (s_scaling cfg) (s_mach cfg)).
Proof.
  intros cfg direction V G M Sc. unfold get_farfield_state. rewrite (sound_ok cfg M). cbn [bind].
  destruct (length direction =? s_dim cfg)%nat; [|discriminate]. intros H. cbn in H. apply ok_inj in H. subst V. cbn [f_T f_p].
  destruct (s_scaling cfg); [| |contradiction]; cbn [farfield_sound documented_temperature documented_pressure]; split; f_equal; unfold scaling_density; field; lra.
Qed.
Print Assumptions c48_documented.

(** ... but not for the aeroacoustic scaling: the documentation has 1 + Ma^2 where (1 + Ma)^2 is returned. *)
Theorem c48_documented_refuted : forall cfg direction V, 1 < s_gamma cfg -> 0 < s_mach cfg -> s_scaling cfg = Aeroacoustic -> get_farfield_state cfg direction = Ok V ->
  f_T V = Some (1 / ((s_gamma cfg - 1) * (1 + s_mach cfg) ^ 2)) /\ f_p V = Some (1 / (s_gamma cfg * (1 + s_mach cfg) ^ 2)) /\
  f_T V <> Some (documented_temperature (s_gamma cfg) Aeroacoustic (s_mach cfg)) /\ f_p V <> Some (documented_pressure (s_gamma cfg) Aeroacoustic (s_mach cfg)).
Proof.
  intros cfg direction V G M Sc. unfold get_farfield_state. rewrite (sound_ok cfg M), Sc. cbn [bind].
  destruct (length direction =? s_dim cfg)%nat; [|discriminate]. intros H. cbn in H. apply ok_inj in H. subst V. cbn [f_T f_p].
  set (g := s_gamma cfg) in *. set (Ma := s_mach cfg) in *.
  assert (A : 1 / (1 + Ma ^ 2) <> 1 / (1 + Ma) ^ 2).
  { intros E. apply (f_equal Rinv) in E. unfold Rdiv in E. rewrite !Rmult_1_l, !Rinv_inv in E. nra. }
  assert (P1 : 1 + Ma ^ 2 <> 0) by nra. assert (P2 : 1 + Ma <> 0) by lra. unfold scaling_density.
  assert (ET : (1 / (1 + Ma)) ^ 2 / (g - 1) = 1 / ((g - 1) * (1 + Ma) ^ 2)) by (field; lra).
  assert (Ep : (g - 1) / g * 1 * (1 / ((g - 1) * (1 + Ma) ^ 2)) = 1 / (g * (1 + Ma) ^ 2)) by (field; lra).
  repeat match goal with |- _ /\ _ => split end.
  - f_equal. rewrite <- ET. unfold pow. field. lra.
  - f_equal. rewrite <- Ep. field. lra.
  - intros H. apply some_inj in H. apply A. cbn [documented_temperature] in H.
    transitivity ((g - 1) * (1 / ((g - 1) * (1 + Ma ^ 2)))); [field; split; lra|]. rewrite <- H. field. lra.
  - intros H. apply some_inj in H. apply A. cbn [documented_pressure] in H.
    transitivity (g * (1 / (g * (1 + Ma ^ 2)))); [field; split; lra|]. rewrite <- H. field. lra.
Qed.
Print Assumptions c48_documented_refuted.

(** The dimension of the direction is checked; the aerodynamic scaling refuses a Mach number of zero, the others yield
    a gas at rest. *)
Theorem c48_raises : forall cfg direction,
  (s_scaling cfg = Aerodynamic -> s_mach cfg <= 0 -> get_farfield_state cfg direction = Err ValueError) /\
  (0 <= s_mach cfg -> length direction <> s_dim cfg -> get_farfield_state cfg direction = Err ValueError) /\
  (s_scaling cfg <> Aerodynamic -> s_mach cfg = 0 -> length direction = s_dim cfg -> exists V, get_farfield_state cfg direction = Ok V /\ f_u V = Some (repeat 0 (s_dim cfg)) /\ f_c V = Some 1).
Proof.
  intros cfg direction. split; [|split].
  - intros Sc M. unfold get_farfield_state, scaling_speed_of_sound. rewrite Sc. destruct Rle_dec; [reflexivity|contradiction].
  - intros M L. unfold get_farfield_state. apply Nat.eqb_neq in L. rewrite L. cbn [negb].
    unfold scaling_speed_of_sound. destruct (s_scaling cfg); [destruct Rle_dec|..]; reflexivity.
  - intros Sc M L. unfold get_farfield_state. rewrite L, Nat.eqb_refl. cbn [negb]. rewrite <- L.
    assert (Z : scaling_velocity (s_scaling cfg) direction (s_mach cfg) = repeat 0 (length direction)).
    { unfold scaling_velocity. rewrite M. assert (Zm : velocity_magnitude (s_scaling cfg) 0 = 0) by (destruct (s_scaling cfg); [contradiction|reflexivity|cbn; unfold Rdiv; ring]). rewrite Zm. unfold vscale, unit_vector. rewrite map_map.
      generalize (sqrt (inner direction direction)). intros q. induction direction as [|a l IH]; [reflexivity|]. cbn [map length repeat]. f_equal; [ring|].
      clear -q. induction l as [|b l IH]; [reflexivity|]. cbn [map length repeat]. f_equal; [ring|exact IH]. }
    rewrite Z, M. destruct (s_scaling cfg); [contradiction|..]; eexists; (split; [cbn; reflexivity|]); split; try reflexivity. cbn. f_equal. field.
Qed.
Print Assumptions c48_raises.

(** ** Viscosity *)

Lemma Rpower_three_halves x : 0 < x -> Rpower x (3 / 2) = x * sqrt x.
Proof. intros X. replace (3 / 2) with (1 + / 2) by field. rewrite Rpower_plus, Rpower_1, Rpower_sqrt by exact X. reflexivity. Qed.

(** Temperature of the farfield. *)
Definition farfield_temperature (cfg : settings) : R := farfield_sound (s_scaling cfg) (s_mach cfg) ^ 2 / (s_gamma cfg - 1).

Lemma farfield_temperature_pos cfg : 1 < s_gamma cfg -> 0 < s_mach cfg -> 0 < farfield_temperature cfg.
Proof. intros G M. apply Rdiv_lt_0_compat; [apply pow_lt, sound_pos, M|lra]. Qed.

Lemma farfield_temperature_ok cfg direction : 1 < s_gamma cfg -> 0 < s_mach cfg -> forall V, get_farfield_state cfg direction = Ok V -> f_T V = Some (farfield_temperature cfg).
Proof.
  intros G M V. unfold get_farfield_state. rewrite (sound_ok cfg M). cbn [bind]. destruct (length direction =? s_dim cfg)%nat; [|discriminate]. intros H. cbn in H. apply ok_inj in H. subst V.
  reflexivity.
Qed.

Lemma sutherland_value cfg meas U T : 1 < s_gamma cfg -> 0 < s_mach cfg -> s_law cfg = Sutherland meas -> 0 <= meas -> 0 < s_ref_T cfg ->
  f_T U = Some T -> 0 < T -> viscosity cfg U = Ok (sutherland meas (s_ref_T cfg) (T / farfield_temperature cfg * s_ref_T cfg)).
Proof.
  intros G M La S0 Rf ET T0. pose proof (farfield_temperature_pos cfg G M) as P.
  unfold viscosity, law_viscosity. rewrite La, ET, (sound_ok cfg M). cbn [bind temperature equation eos_temperature f_rho f_p f_Ei f_c f_rho_Ei].
  assert (C : 0 < farfield_sound (s_scaling cfg) (s_mach cfg)) by (apply sound_pos; exact M). set (c := farfield_sound (s_scaling cfg) (s_mach cfg)) in *.
  replace (farfield_temperature cfg) with (c ^ 2 / (s_gamma cfg - 1)) in * by reflexivity.
  set (Ti := c ^ 2 / (s_gamma cfg - 1)) in *. cbn. replace (c * (c * 1)) with (c ^ 2) by ring. fold Ti. f_equal.
  rewrite Rpower_three_halves by (apply Rdiv_lt_0_compat; lra).
  unfold sutherland. replace (T / Ti * s_ref_T cfg / s_ref_T cfg) with (T / Ti) by (field; lra).
  assert (0 < T * s_ref_T cfg + meas * Ti) by (apply Rplus_lt_le_0_compat; [apply Rmult_lt_0_compat|apply Rmult_le_pos]; lra).
  set (q := sqrt (T / Ti)). field. repeat split; lra.
Qed.

(** Sutherland's law in the units of measurement: the temperature relative to the farfield in Kelvin. *)
Theorem c49_sutherland : forall cfg meas U T direction V Tinf, 1 < s_gamma cfg -> 0 < s_mach cfg -> s_law cfg = Sutherland meas -> 0 <= meas -> 0 < s_ref_T cfg ->
  f_T U = Some T -> 0 < T -> get_farfield_state cfg direction = Ok V -> f_T V = Some Tinf ->
  viscosity cfg U = Ok (sutherland meas (s_ref_T cfg) (T / Tinf * s_ref_T cfg)) /\ 0 < sutherland meas (s_ref_T cfg) (T / Tinf * s_ref_T cfg).
Proof.
  intros cfg meas U T direction V Tinf G M La S0 Rf ET T0 EV EI. rewrite (farfield_temperature_ok cfg direction G M V EV) in EI. apply some_inj in EI. subst Tinf.
  split; [apply sutherland_value; assumption|]. pose proof (farfield_temperature_pos cfg G M) as P.
  assert (Q : 0 < T / farfield_temperature cfg) by (apply Rdiv_lt_0_compat; lra). unfold sutherland. set (q := T / farfield_temperature cfg) in *.
  assert (0 < q * s_ref_T cfg) by (apply Rmult_lt_0_compat; lra).
  replace (q * s_ref_T cfg / s_ref_T cfg) with q by (field; lra). apply Rmult_lt_0_compat; [apply Rmult_lt_0_compat; [exact Q|apply sqrt_lt_R0; exact Q]|apply Rdiv_lt_0_compat; lra].
Qed.
Print Assumptions c49_sutherland.

(** It gives one at the farfield ... *)
Theorem c49_farfield : forall cfg meas direction V, 1 < s_gamma cfg -> 0 < s_mach cfg -> s_law cfg = Sutherland meas -> 0 <= meas -> 0 < s_ref_T cfg ->
  get_farfield_state cfg direction = Ok V -> viscosity cfg V = Ok 1.
Proof.
  intros cfg meas direction V G M La S0 Rf EV. pose proof (farfield_temperature_pos cfg G M) as P.
  rewrite (sutherland_value cfg meas V (farfield_temperature cfg) G M La S0 Rf (farfield_temperature_ok cfg direction G M V EV) P).
  f_equal. unfold sutherland. replace (farfield_temperature cfg / farfield_temperature cfg * s_ref_T cfg) with (s_ref_T cfg) by (field; lra).
  replace (s_ref_T cfg / s_ref_T cfg) with 1 by (field; lra). rewrite sqrt_1. field. lra.
Qed.
Print Assumptions c49_farfield.

(** ... and grows with the temperature. *)
Theorem c49_increasing : forall cfg meas U W T X mu nu, 1 < s_gamma cfg -> 0 < s_mach cfg -> s_law cfg = Sutherland meas -> 0 <= meas -> 0 < s_ref_T cfg ->
  f_T U = Some T -> f_T W = Some X -> 0 < T -> T < X -> viscosity cfg U = Ok mu -> viscosity cfg W = Ok nu -> 0 < mu < nu.
Proof.
  intros cfg meas U W T X mu nu G M La S0 Rf ET EX T0 TX Hm Hn. pose proof (farfield_temperature_pos cfg G M) as P.
  rewrite (sutherland_value cfg meas U T G M La S0 Rf ET T0) in Hm. rewrite (sutherland_value cfg meas W X G M La S0 Rf EX ltac:(lra)) in Hn.
  apply ok_inj in Hm. apply ok_inj in Hn. set (f := farfield_temperature cfg) in *. set (r := s_ref_T cfg) in *.
  assert (QT : 0 < T / f) by (apply Rdiv_lt_0_compat; lra). assert (QX : T / f < X / f) by (apply Rmult_lt_compat_r; [apply Rinv_0_lt_compat; exact P|exact TX]).
  set (a := T / f) in *. set (b := X / f) in *. subst mu nu. unfold sutherland.
  replace (a * r / r) with a by (field; lra). replace (b * r / r) with b by (field; lra).
  assert (Ar : 0 < a * r) by (apply Rmult_lt_0_compat; lra). assert (Br : 0 < b * r) by (apply Rmult_lt_0_compat; lra).
  assert (Sa : 0 < sqrt a) by (apply sqrt_lt_R0; exact QT). assert (Sb : sqrt a < sqrt b) by (apply sqrt_lt_1; lra).
  assert (F : a / (a * r + meas) <= b / (b * r + meas)).
  { apply (Rmult_le_reg_r ((a * r + meas) * (b * r + meas))); [apply Rmult_lt_0_compat; lra|].
    replace (a / (a * r + meas) * ((a * r + meas) * (b * r + meas))) with (a * (b * r + meas)) by (field; lra).
    replace (b / (b * r + meas) * ((a * r + meas) * (b * r + meas))) with (b * (a * r + meas)) by (field; lra). nra. }
  assert (Fa : 0 < a / (a * r + meas)) by (apply Rdiv_lt_0_compat; lra).
  replace (a * sqrt a * ((r + meas) / (a * r + meas))) with ((r + meas) * (sqrt a * (a / (a * r + meas)))) by (field; lra).
  replace (b * sqrt b * ((r + meas) / (b * r + meas))) with ((r + meas) * (sqrt b * (b / (b * r + meas)))) by (field; lra).
  set (x := a / (a * r + meas)) in *. set (y := b / (b * r + meas)) in *.
  assert (0 < sqrt a * x) by (apply Rmult_lt_0_compat; lra).
  split; [apply Rmult_lt_0_compat; lra|]. apply Rmult_lt_compat_l; [lra|]. nra.
Qed.
Print Assumptions c49_increasing.

(** The other laws, and what is missing: Sutherland's law reads the temperature itself, whatever else is given. *)
Theorem c49_others : forall cfg U,
  (s_law cfg = Constant -> viscosity cfg U = Ok 1) /\
  (s_law cfg = Inviscid -> viscosity cfg U = Err TypeError) /\
  (forall meas, s_law cfg = Sutherland meas -> f_T U = None -> viscosity cfg U = Err ValueError) /\
  (forall meas, s_law cfg = Sutherland meas -> s_scaling cfg = Aerodynamic -> s_mach cfg <= 0 -> viscosity cfg U = Err ValueError).
Proof.
  intros cfg U. unfold viscosity, law_viscosity. repeat match goal with |- _ /\ _ => split end.
  - intros E. rewrite E. reflexivity.
  - intros E. rewrite E. reflexivity.
  - intros meas E F. rewrite E, F. reflexivity.
  - intros meas E Sc M. rewrite E, Sc. destruct (f_T U); [|reflexivity]. unfold scaling_speed_of_sound. destruct Rle_dec; [reflexivity|contradiction].
Qed.
Print Assumptions c49_others.

(** ** Similarity numbers *)

(** The farfield state has the Mach number that was set, and, with the reference Reynolds number that scales the viscous
    terms, the Reynolds number that was set, whatever the scaling and the law of viscosity. *)
Theorem c48_similarity : forall cfg direction V, 1 < s_gamma cfg -> 0 < s_mach cfg -> length direction = s_dim cfg -> inner direction direction <> 0 ->
  get_farfield_state cfg direction = Ok V ->
  get_local_mach_number cfg false V = Ok (s_mach cfg) /\
  (s_law cfg <> Inviscid -> (forall meas, s_law cfg = Sutherland meas -> 0 <= meas) -> 0 < s_ref_T cfg ->
     exists re ref, get_local_reynolds_number cfg false V = Ok re /\ reference_reynolds_number cfg = Ok ref /\ ref * re = s_reynolds cfg).
Proof.
  intros cfg direction V G M L N EV.
  destruct (farfield_value cfg direction G M L) as (V' & E & D & H). rewrite EV in E. apply ok_inj in E. subst V'.
  pose proof (sound_pos (s_scaling cfg) (s_mach cfg) M) as C.
  assert (V0 : 0 < farfield_speed (s_scaling cfg) (s_mach cfg)) by (destruct (s_scaling cfg); cbn; try lra; apply Rdiv_lt_0_compat; lra).
  set (s := far _ _ _ _) in D.
  pose proof (far_speed (s_gamma cfg) (farfield_sound (s_scaling cfg) (s_mach cfg)) _ direction (Rlt_le _ _ V0) N) as (_ & Sp & _ & _). fold s in Sp.
  assert (Va : valid s) by (split; unfold s, far; cbn [st_rho st_p]; [lra|apply Rdiv_lt_0_compat; [apply pow_lt; exact C|lra]]).
  pose proof (H Uu ltac:(cbn; tauto)) as Hu. pose proof (H Cc ltac:(cbn; tauto)) as Hc. pose proof (H Rho ltac:(cbn; tauto)) as Hr. pose proof (H Tt ltac:(cbn; tauto)) as HT. cbn [has] in Hu, Hc, Hr, HT.
  destruct D as (D1 & D2 & _ & _ & D5 & _ & _ & _ & _ & _ & _ & _ & _ & D14).
  destruct (f_u V) as [u|] eqn:Eu; [|discriminate]. destruct (f_c V) as [c|] eqn:Ec; [|discriminate]. destruct (f_rho V) as [rho|] eqn:Er; [|discriminate].
  specialize (D2 u eq_refl). specialize (D14 c eq_refl). specialize (D1 rho eq_refl). subst u c rho.
  assert (Mc : farfield_speed (s_scaling cfg) (s_mach cfg) = s_mach cfg * farfield_sound (s_scaling cfg) (s_mach cfg)) by (destruct (s_scaling cfg); cbn; field; lra).
  split.
  - unfold get_local_mach_number, velocity, speed_of_sound, eos_speed_of_sound. rewrite Eu, Ec. cbn [equation bind]. f_equal.
    assert (Cs : q_c (s_gamma cfg) s = farfield_sound (s_scaling cfg) (s_mach cfg)) by (apply far_sound; assumption). rewrite Cs, Sp, Mc. field. lra.
  - intros La Su Rf. unfold get_local_reynolds_number, density, eos_density, velocity, reference_reynolds_number, reynolds_number. rewrite Er, Eu. cbn [equation bind].
    assert (Vi : viscosity cfg V = Ok 1).
    { destruct (s_law cfg) as [| |meas] eqn:El; [contradiction|apply c49_others; exact El|]. eapply c49_farfield; [exact G|exact M|exact El|apply Su; reflexivity|exact Rf|exact EV]. }
    rewrite Vi. cbn [bind]. destruct (s_law cfg); [contradiction|..]; cbn [bind]; eexists; eexists; (split; [reflexivity|]); (split; [reflexivity|]);
      change (velocity_magnitude (s_scaling cfg) (s_mach cfg)) with (farfield_speed (s_scaling cfg) (s_mach cfg)); rewrite Sp; change (st_rho s) with 1; field; lra.
Qed.
Print Assumptions c48_similarity.

(** ** Example *)
Example c48_example :
  let cfg := mk_settings (7 / 5) (1 / 2) 150 (72 / 100) Aeroacoustic (Sutherland 110) LaxFriedrich 293 2 in
  (exists V, get_farfield_state cfg [3; 4] = Ok V /\ f_rho V = Some 1 /\ f_c V = Some (1 / (1 + 1 / 2)) /\ get_local_mach_number cfg false V = Ok (1 / 2)) /\
  get_farfield_state cfg [1; 0; 0] = Err ValueError /\
  get_farfield_state (mk_settings (7 / 5) 0 150 (72 / 100) Aerodynamic Constant LaxFriedrich 293 2) [1; 0] = Err ValueError.
Proof.
  intros cfg. split; [|split].
  - assert (N : inner [3; 4] [3; 4] <> 0) by (cbn; lra).
    destruct (c48_state cfg [3; 4] ltac:(cbn; lra) ltac:(cbn; lra) eq_refl N) as (V & s & E & _). exists V. split; [exact E|].
    split; [|split]; [..|exact (proj1 (c48_similarity cfg [3; 4] V ltac:(cbn; lra) ltac:(cbn; lra) eq_refl N E))];
    unfold get_farfield_state in E; cbn in E; apply ok_inj in E; subst V; reflexivity.
  - apply c48_raises; cbn; [lra|discriminate].
  - exact (proj1 (c48_raises (mk_settings (7 / 5) 0 150 (72 / 100) Aerodynamic Constant LaxFriedrich 293 2) [1; 0]) eq_refl (Rle_refl 0)).
Qed.

(** At four times the farfield temperature with a measurement temperature equal to the reference: 4 * 2 * 2 / 5. *)
Example c49_example :
  let cfg := mk_settings (7 / 5) (1 / 2) 150 (72 / 100) Acoustic (Sutherland 300) LaxFriedrich 300 2 in
  viscosity cfg (mk_flow None None None None (Some 10) None None None None None None None None None) = Ok (16 / 5) /\
  viscosity cfg no_flow = Err ValueError.
Proof.
  intros cfg. split; [|reflexivity].
  rewrite (sutherland_value cfg 300 (mk_flow None None None None (Some 10) None None None None None None None None None) 10 ltac:(cbn; lra) ltac:(cbn; lra) eq_refl ltac:(lra) ltac:(cbn; lra) eq_refl ltac:(lra)). f_equal. unfold sutherland, farfield_temperature. cbn.
  replace (10 / (1 * (1 * 1) / (7 / 5 - 1)) * 300 / 300) with (2 * 2) by field. rewrite sqrt_square by lra. field.
Qed.
