(** C41: the equations return the value of the state whatever fields they are computed from.
    C53: the isentropic density. *)
From Coq Require Import Reals List Arith Lra Lia Bool.
From Verif Require Import Base M_Bla M_Flow S_Flow.
Import ListNotations.
Open Scope R_scope.

(** ** Lemmas *)

Lemma inner_scale a x y : inner (map (fun b => a * b) x) (map (fun b => a * b) y) = a ^ 2 * inner x y.
Proof. revert y; induction x as [|v x IH]; intros [|w y]; cbn [map inner]; try ring. rewrite IH; ring. Qed.

Lemma inner_nonneg x : 0 <= inner x x.
Proof. induction x as [|a x IH]; cbn [inner]; [lra|]. pose proof (Rle_0_sqr a) as H; unfold Rsqr in H; lra. Qed.

Lemma q_c_square g s : 1 < g -> valid s -> q_c g s ^ 2 = g * st_p s / st_rho s.
Proof.
  intros G [R P]; unfold q_c. rewrite pow2_sqrt; [reflexivity|].
  apply Rlt_le, Rdiv_lt_0_compat; [apply Rmult_lt_0_compat|]; lra.
Qed.

Lemma q_c_pos g s : 1 < g -> valid s -> 0 < q_c g s.
Proof.
  intros G [R P]; unfold q_c. apply sqrt_lt_R0. apply Rdiv_lt_0_compat; [apply Rmult_lt_0_compat|]; lra.
Qed.

Lemma equation_ok {A} (o : option A) v : equation (Ok o) = Ok v -> o = Some v.
Proof. destruct o; cbn; congruence. Qed.

Lemma vdiv_momentum s : valid s -> vdiv (q_rho_u s) (st_rho s) = st_u s.
Proof.
  intros [R P]; unfold vdiv, q_rho_u. rewrite map_map. rewrite <- (map_id (st_u s)) at 2. apply map_ext; intros a. field; lra.
Qed.

Lemma determined_bool sources U : determined sources U <-> existsb (forallb (has U)) sources = true.
Proof.
  unfold determined. rewrite existsb_exists. split; intros (l & I & H); exists l; split; trivial.
  - apply forallb_forall; exact H.
  - rewrite forallb_forall in H; exact H.
Qed.

Lemma answers_bool {A} sources U (r : result A) :
  (if existsb (forallb (has U)) sources then exists v, r = Ok v else r = Err ValueError) -> answers sources U r.
Proof.
  intros H; unfold answers. rewrite determined_bool. destruct (existsb (forallb (has U)) sources); [left|right]; (split; [|exact H]); [reflexivity|discriminate].
Qed.

(** What the fields are, one after the other. *)
Ltac fields D := destruct D as (Grho & Gu & Gm & Gp & GT & GrE & GE & GrEi & GEi & GrEk & GEk & GrH & GH & Gc).

Lemma some_inj {A} (x y : A) : Some x = Some y -> x = y.
Proof. congruence. Qed.
Lemma ok_inj {A} (x y : A) : @Ok A x = Ok y -> x = y.
Proof. congruence. Qed.

Ltac use_given :=
  repeat match goal with
  | G : given (Some ?x) _ |- _ => specialize (G x eq_refl)
  | G : given None _ |- _ => clear G
  | G : Some _ = Some _ |- _ => apply some_inj in G
  | G : None = Some _ |- _ => discriminate G
  end.

Ltac branches :=
  repeat match goal with
  | H : match ?o with Some _ => _ | None => _ end = _ |- _ => destruct o eqn:?
  end.

Ltac positive := unfold q_rho_H, q_H, q_rho_E, q_E, q_Ei, q_rho_Ei, q_T, q_rho_Ek, q_Ek, q_rho_u; try field; repeat split; lra.

Section Path.
Variables (cfg : settings) (s : state) (U : flow).
Hypothesis gamma : 1 < s_gamma cfg.
Hypothesis V : valid s.
Hypothesis D : describes (s_gamma cfg) s U.

Ltac start := intros H; unfold density, pressure, temperature, speed_of_sound, velocity, momentum, inner_energy, specific_inner_energy, kinetic_energy,
    specific_kinetic_energy, specific_energy, enthalpy in H;
  apply equation_ok in H; fields D; pose proof (q_c_square _ _ gamma V) as C2; destruct V as [Vr Vp].

Lemma density_ok v : density cfg U = Ok v -> v = st_rho s.
Proof.
  start; unfold eos_density in H; branches; try discriminate H; apply some_inj in H; use_given; subst; trivial; rewrite ?C2; positive.
Qed.

Lemma pressure_ok v : pressure cfg U = Ok v -> v = st_p s.
Proof.
  start; unfold eos_pressure in H; branches; try discriminate H; apply some_inj in H; use_given; subst; trivial; rewrite ?C2; positive.
Qed.

Lemma temperature_ok v : temperature cfg U = Ok v -> v = q_T (s_gamma cfg) s.
Proof.
  start; unfold eos_temperature in H; branches; try discriminate H; apply some_inj in H; use_given; subst; trivial; rewrite ?C2; positive.
Qed.

Lemma inner_energy_ok v : inner_energy cfg U = Ok v -> v = q_rho_Ei (s_gamma cfg) s.
Proof.
  start; unfold eos_inner_energy in H; branches; try discriminate H; apply some_inj in H; use_given; subst; trivial; positive.
Qed.

Lemma specific_inner_energy_ok v : specific_inner_energy cfg U = Ok v -> v = q_Ei (s_gamma cfg) s.
Proof.
  start; unfold eos_specific_inner_energy in H; branches; try discriminate H; apply some_inj in H; use_given; subst; trivial; positive.
Qed.

Lemma kinetic_energy_ok v : kinetic_energy U = Ok v -> v = q_rho_Ek s.
Proof.
  start; branches; try discriminate H; apply some_inj in H; use_given; subst; trivial; try positive.
  all: unfold q_rho_u; rewrite inner_scale; positive.
Qed.

Lemma specific_kinetic_energy_ok v : specific_kinetic_energy U = Ok v -> v = q_Ek s.
Proof.
  start; branches; try discriminate H; apply some_inj in H; use_given; subst; trivial; try positive.
  all: unfold q_rho_u; rewrite inner_scale; positive.
Qed.

Lemma energy_ok v : energy cfg U = Ok v -> v = q_rho_E (s_gamma cfg) s.
Proof.
  intros H; unfold energy in H.
  pose proof inner_energy_ok as IE; pose proof kinetic_energy_ok as KE.
  assert (S : q_rho_Ei (s_gamma cfg) s + q_rho_Ek s = q_rho_E (s_gamma cfg) s) by (destruct V; positive).
  fields D. destruct V as [Vr Vp]. unfold equation in H.
  assert (K : forall x : R, (let* e := inner_energy cfg U in let* k := kinetic_energy U in Ok (Some (e + k))) = Ok (Some x) -> x = q_rho_E (s_gamma cfg) s).
  { intros x X. destruct (inner_energy cfg U) as [e|] eqn:E1; [|discriminate X]. destruct (kinetic_energy U) as [k|] eqn:E2; [|discriminate X].
    cbn in X; inversion X; subst x. rewrite (IE _ eq_refl), (KE _ eq_refl). exact S. }
  destruct (f_rho_E U) as [a|] eqn:E1; [inversion H; subst a; use_given; subst; trivial|].
  destruct (f_rho U) as [r|] eqn:E2, (f_E U) as [e|] eqn:E3.
  { inversion H; use_given; subst; reflexivity. }
  all: destruct (f_rho_Ei U) as [i|] eqn:E4, (f_rho_Ek U) as [k|] eqn:E5; try (inversion H; use_given; subst; exact S).
  all: destruct (let* e := inner_energy cfg U in let* k := kinetic_energy U in Ok (Some (e + k))) as [[x|]|] eqn:X; try discriminate H.
  all: inversion H; subst; apply K; exact eq_refl.
Qed.

Lemma specific_energy_ok v : specific_energy U = Ok v -> v = q_E (s_gamma cfg) s.
Proof. start; branches; try discriminate H; apply some_inj in H; use_given; subst; trivial; positive. Qed.

Lemma enthalpy_ok v : enthalpy U = Ok v -> v = q_rho_H (s_gamma cfg) s.
Proof. start; branches; try discriminate H; apply some_inj in H; use_given; subst; trivial; positive. Qed.

Lemma specific_enthalpy_ok v : specific_enthalpy U = Ok v -> v = q_H (s_gamma cfg) s.
Proof.
  intros H; unfold specific_enthalpy, equation in H. fields D. destruct V as [Vr Vp].
  destruct (f_H U) eqn:?; [inversion H; use_given; subst; trivial|].
  destruct (f_rho U) eqn:?; [|discriminate H].
  destruct (f_rho_H U) eqn:?; [inversion H; use_given; subst; positive|].
  destruct (f_rho_E U) eqn:?; [|discriminate H]. destruct (f_p U) eqn:?; [|discriminate H].
  destruct (f_E U) eqn:?; [|discriminate H]. inversion H; use_given; subst; reflexivity.
Qed.

Lemma velocity_ok zeros v : (zeros = true -> given (f_rho U) 0) -> velocity zeros U = Ok v -> v = st_u s.
Proof.
  intros Z; start; branches; try discriminate H; try (inversion H; subst; use_given; subst; reflexivity).
  assert (E : zeros = false).
  { destruct zeros; trivial. specialize (Z eq_refl r eq_refl). use_given. lra. }
  subst zeros; inversion H; use_given; subst. apply vdiv_momentum; split; assumption.
Qed.

Lemma momentum_ok v : momentum U = Ok v -> v = q_rho_u s.
Proof. start; branches; inversion H; subst; use_given; subst; reflexivity. Qed.

Lemma speed_of_sound_ok v : f_Ei U = None \/ f_T U <> None \/ (f_rho U <> None /\ f_p U <> None) ->
  speed_of_sound cfg U = Ok v -> v = q_c (s_gamma cfg) s.
Proof.
  intros N; start; unfold eos_speed_of_sound in H.
  assert (TT : sqrt ((s_gamma cfg - 1) * q_T (s_gamma cfg) s) = q_c (s_gamma cfg) s) by (unfold q_c, q_T; f_equal; field; lra).
  branches; try discriminate H; apply some_inj in H; use_given; subst; trivial.
  all: exfalso; destruct N as [N|[N|[N1 N2]]]; congruence.
Qed.
End Path.

(** ** C41 *)

(** Whatever fields of a state are given, each equation returns the value of that state or raises. *)
Theorem c41_values : forall cfg s U, 1 < s_gamma cfg -> valid s -> describes (s_gamma cfg) s U ->
  (forall v, density cfg U = Ok v -> v = st_rho s) /\
  (forall v, pressure cfg U = Ok v -> v = st_p s) /\
  (forall v, temperature cfg U = Ok v -> v = q_T (s_gamma cfg) s) /\
  (forall v, inner_energy cfg U = Ok v -> v = q_rho_Ei (s_gamma cfg) s) /\
  (forall v, specific_inner_energy cfg U = Ok v -> v = q_Ei (s_gamma cfg) s) /\
  (forall v, kinetic_energy U = Ok v -> v = q_rho_Ek s) /\
  (forall v, specific_kinetic_energy U = Ok v -> v = q_Ek s) /\
  (forall v, energy cfg U = Ok v -> v = q_rho_E (s_gamma cfg) s) /\
  (forall v, specific_energy U = Ok v -> v = q_E (s_gamma cfg) s) /\
  (forall v, enthalpy U = Ok v -> v = q_rho_H (s_gamma cfg) s) /\
  (forall v, specific_enthalpy U = Ok v -> v = q_H (s_gamma cfg) s) /\
  (forall v, momentum U = Ok v -> v = q_rho_u s) /\
  (forall v zeros, (zeros = true -> given (f_rho U) 0) -> velocity zeros U = Ok v -> v = st_u s).
Proof.
  intros cfg s U G V D.
  repeat match goal with |- _ /\ _ => split end; intros v.
  - exact (density_ok cfg s U G V D v).
  - exact (pressure_ok cfg s U G V D v).
  - exact (temperature_ok cfg s U G V D v).
  - exact (inner_energy_ok cfg s U G V D v).
  - exact (specific_inner_energy_ok cfg s U G V D v).
  - exact (kinetic_energy_ok cfg s U G V D v).
  - exact (specific_kinetic_energy_ok cfg s U G V D v).
  - exact (energy_ok cfg s U G V D v).
  - exact (specific_energy_ok cfg s U G V D v).
  - exact (enthalpy_ok cfg s U G V D v).
  - exact (specific_enthalpy_ok cfg s U G V D v).
  - exact (momentum_ok cfg s U G V D v).
  - intros zeros. exact (velocity_ok cfg s U G V D zeros v).
Qed.
Print Assumptions c41_values.

(** The speed of sound, unless it is computed from the specific inner energy. *)
Theorem c41_speed_of_sound : forall cfg s U v, 1 < s_gamma cfg -> valid s -> describes (s_gamma cfg) s U ->
  f_Ei U = None \/ f_c U <> None \/ f_T U <> None \/ (f_rho U <> None /\ f_p U <> None) ->
  speed_of_sound cfg U = Ok v -> v = q_c (s_gamma cfg) s.
Proof.
  intros cfg s U v G V D [N|[N|N]] H.
  - exact (speed_of_sound_ok cfg s U G V D v (or_introl N) H).
  - unfold speed_of_sound, eos_speed_of_sound in H. destruct (f_c U) as [c|] eqn:E; [|contradiction]. cbn in H. inversion H; subst. fields D. exact (Gc _ E).
  - exact (speed_of_sound_ok cfg s U G V D v (or_intror N) H).
Qed.
Print Assumptions c41_speed_of_sound.

(** Computed from the specific inner energy the speed of sound is wrong for every state: too small by the factor
    [gamma]. *)
Theorem c41_speed_of_sound_refuted : forall cfg s U, 1 < s_gamma cfg -> valid s -> describes (s_gamma cfg) s U ->
  f_c U = None -> f_T U = None -> (f_rho U = None \/ f_p U = None) -> f_Ei U <> None ->
  exists v, speed_of_sound cfg U = Ok v /\ v = q_c (s_gamma cfg) s / s_gamma cfg /\ v < q_c (s_gamma cfg) s.
Proof.
  intros cfg s U G V D Ec ET Erp EEi. pose proof (q_c_pos _ _ G V) as CP.
  destruct (f_Ei U) as [e|] eqn:E; [|contradiction].
  assert (F : sqrt ((s_gamma cfg - 1) * e / s_gamma cfg) = q_c (s_gamma cfg) s / s_gamma cfg).
  { fields D. apply GEi in E; subst e. destruct V as [Vr Vp]. unfold q_c, q_Ei, q_rho_Ei.
    transitivity (sqrt (s_gamma cfg * st_p s / st_rho s) / sqrt (s_gamma cfg ^ 2)).
    - rewrite <- sqrt_div_alt by (apply pow_lt; lra). f_equal. field; lra.
    - rewrite sqrt_pow2 by lra. reflexivity. }
  exists (q_c (s_gamma cfg) s / s_gamma cfg). split; [|split]; trivial.
  - unfold speed_of_sound, eos_speed_of_sound. rewrite Ec, ET, E, F. destruct Erp as [-> | ->]; [|destruct (f_rho U)]; reflexivity.
  - apply Rmult_lt_reg_r with (s_gamma cfg); [lra|]. unfold Rdiv; rewrite Rmult_assoc, Rinv_l by lra.
    rewrite Rmult_1_r, <- (Rmult_1_r (q_c (s_gamma cfg) s)) at 1. apply Rmult_lt_compat_l; lra.
Qed.
Print Assumptions c41_speed_of_sound_refuted.

(** The combinations of fields from which a quantity is obtained. *)
Definition density_sources := [[Rho]; [Pp; Tt]; [Pp; Cc]; [RhoEi; Tt]].
Definition pressure_sources := [[Pp]; [Rho; Tt]; [RhoEi]; [Rho; Cc]].
Definition temperature_sources := [[Tt]; [Pp; Rho]; [Eie]; [Cc]].
Definition inner_energy_sources := [[RhoEi]; [Pp]; [Rho; Tt]; [RhoE; RhoEk]].
Definition specific_inner_energy_sources := [[Eie]; [Tt]; [Rho; Pp]; [Rho; RhoEi]; [Ee; Eke]].
Definition kinetic_energy_sources := [[RhoEk]; [Rho; Uu]; [Rho; RhoU]; [RhoE; RhoEi]; [Rho; Eke]].
Definition specific_kinetic_energy_sources := [[Eke]; [Uu]; [Rho; RhoU]; [Rho; RhoEk]; [Ee; Eie]].
Definition energy_sources := [[RhoE]; [Rho; Ee]] ++ flat_map (fun a => map (app a) kinetic_energy_sources) inner_energy_sources.
Definition specific_energy_sources := [[Ee]; [Rho; RhoE]; [Eie; Eke]].
Definition enthalpy_sources := [[RhoH]; [RhoE; Pp]; [Rho; Hh]].
Definition speed_of_sound_sources := [[Cc]; [Rho; Pp]; [Tt]; [Eie]].
Definition velocity_sources := [[Uu]; [Rho; RhoU]].
Definition momentum_sources := [[RhoU]; [Rho; Uu]].

Ltac decide_fields U :=
  destruct (f_rho U), (f_u U), (f_rho_u U), (f_p U), (f_T U), (f_rho_Ei U), (f_c U);
  cbn; try reflexivity; eexists; reflexivity.

(** Every equation returns a value exactly if one of its combinations of fields is given and raises ValueError
    otherwise. *)
Theorem c41_determined : forall cfg zeros U,
  answers density_sources U (density cfg U) /\
  answers pressure_sources U (pressure cfg U) /\
  answers temperature_sources U (temperature cfg U) /\
  answers inner_energy_sources U (inner_energy cfg U) /\
  answers specific_inner_energy_sources U (specific_inner_energy cfg U) /\
  answers kinetic_energy_sources U (kinetic_energy U) /\
  answers specific_kinetic_energy_sources U (specific_kinetic_energy U) /\
  answers energy_sources U (energy cfg U) /\
  answers specific_energy_sources U (specific_energy U) /\
  answers enthalpy_sources U (enthalpy U) /\
  answers speed_of_sound_sources U (speed_of_sound cfg U) /\
  answers velocity_sources U (velocity zeros U) /\
  answers momentum_sources U (momentum U).
Proof.
  intros cfg zeros [rho u m p T rE E ri e rk k rh h c].
  repeat match goal with |- _ /\ _ => split end; apply answers_bool.
  - destruct rho, p, T, c, ri; cbn; try reflexivity; eexists; reflexivity.
  - destruct rho, p, T, c, ri; cbn; try reflexivity; eexists; reflexivity.
  - destruct rho, p, T, c, e; cbn; try reflexivity; eexists; reflexivity.
  - destruct rho, p, T, ri, rE, rk; cbn; try reflexivity; eexists; reflexivity.
  - destruct rho, p, T, ri, e, E, k; cbn; try reflexivity; eexists; reflexivity.
  - destruct rho, u, m, ri, rE, rk, k; cbn; try reflexivity; eexists; reflexivity.
  - destruct rho, u, m, rk, e, E, k; cbn; try reflexivity; eexists; reflexivity.
  - destruct rE; [cbn; eexists; reflexivity|]. destruct rho.
    + destruct E; [cbn; eexists; reflexivity|]. destruct ri, p, T, rk, u, m, k; cbn; try reflexivity; eexists; reflexivity.
    + destruct E, ri, p, T, rk, u, m, k; cbn; try reflexivity; eexists; reflexivity.
  - destruct rho, E, rE, e, k; cbn; try reflexivity; eexists; reflexivity.
  - destruct rho, rE, p, rh, h; cbn; try reflexivity; eexists; reflexivity.
  - destruct rho, p, T, e, c; cbn; try reflexivity; eexists; reflexivity.
  - destruct zeros, rho, u, m; cbn; try reflexivity; eexists; reflexivity.
  - destruct rho, u, m; cbn; try reflexivity; eexists; reflexivity.
Qed.
Print Assumptions c41_determined.

(** The specific enthalpy: given density, energy and pressure, but neither enthalpy nor the specific energy, a
    TypeError is raised although the value is determined by these fields. *)
Theorem c41_specific_enthalpy : forall U,
  (f_H U = None -> (f_rho U = None \/ f_rho_H U = None) -> f_rho U <> None -> f_rho_E U <> None -> f_p U <> None -> f_E U = None ->
     specific_enthalpy U = Err TypeError) /\
  (~ (f_H U = None /\ f_rho_H U = None /\ f_rho U <> None /\ f_rho_E U <> None /\ f_p U <> None /\ f_E U = None) ->
     answers [[Hh]; [Rho; RhoH]; [Rho; RhoE; Pp; Ee]] U (specific_enthalpy U)).
Proof.
  intros [rho u m p T rE E ri e rk k rh h c]; cbn; split.
  - intros -> [-> | ->] A B C ->; [contradiction|]. destruct rho, rE, p; try contradiction; reflexivity.
  - intros N. apply answers_bool. destruct h, rho, rh, rE, p, E; cbn; try reflexivity; try (eexists; reflexivity).
    exfalso; apply N; repeat split; trivial; discriminate.
Qed.
Print Assumptions c41_specific_enthalpy.

(** Two sets of fields of the same state give the same answers wherever both answer (e.g. the inner energy from
    conservative and from primitive fields). *)
Theorem c41_path_independent : forall cfg s U W, 1 < s_gamma cfg -> valid s ->
  describes (s_gamma cfg) s U -> describes (s_gamma cfg) s W ->
  (forall v w, density cfg U = Ok v -> density cfg W = Ok w -> v = w) /\
  (forall v w, pressure cfg U = Ok v -> pressure cfg W = Ok w -> v = w) /\
  (forall v w, temperature cfg U = Ok v -> temperature cfg W = Ok w -> v = w) /\
  (forall v w, inner_energy cfg U = Ok v -> inner_energy cfg W = Ok w -> v = w) /\
  (forall v w, kinetic_energy U = Ok v -> kinetic_energy W = Ok w -> v = w) /\
  (forall v w, energy cfg U = Ok v -> energy cfg W = Ok w -> v = w).
Proof.
  intros cfg s U W G V DU DW.
  destruct (c41_values cfg s U G V DU) as (a1 & a2 & a3 & a4 & a5 & a6 & a7 & a8 & _).
  destruct (c41_values cfg s W G V DW) as (b1 & b2 & b3 & b4 & b5 & b6 & b7 & b8 & _).
  repeat match goal with |- _ /\ _ => split end; intros v w Hv Hw.
  - rewrite (a1 _ Hv), (b1 _ Hw); reflexivity.
  - rewrite (a2 _ Hv), (b2 _ Hw); reflexivity.
  - rewrite (a3 _ Hv), (b3 _ Hw); reflexivity.
  - rewrite (a4 _ Hv), (b4 _ Hw); reflexivity.
  - rewrite (a6 _ Hv), (b6 _ Hw); reflexivity.
  - rewrite (a8 _ Hv), (b8 _ Hw); reflexivity.
Qed.
Print Assumptions c41_path_independent.

(** A state and two descriptions of it, primitive and conservative. *)
Definition air : settings := mk_settings (7 / 5) (3 / 10) 150 (72 / 100) Aerodynamic Inviscid LaxFriedrich 293 2.
Definition example_state : state := mk_state 2 [3; 4] 7.
Definition primitive_fields : flow :=
  mk_flow (Some 2) (Some [3; 4]) None (Some 7) None None None None None None None None None None.
Definition conservative_fields : flow :=
  mk_flow (Some 2) None (Some [6; 8]) None None (Some (85 / 2)) None (Some (35 / 2)) None None None None None None.

Example c41_example : valid example_state /\ describes (7 / 5) example_state primitive_fields /\
  describes (7 / 5) example_state conservative_fields /\ energy air primitive_fields = Ok (7 / (7 / 5 - 1) + 1 / 2 * 2 * (3 * 3 + (4 * 4 + 0))) /\
  energy air conservative_fields = Ok (85 / 2).
Proof.
  repeat split; cbn; try lra; try reflexivity; intros x H; try discriminate H; injection H as <-; try reflexivity;
    unfold q_rho_E, q_E, q_Ei, q_Ek, q_rho_Ei, q_rho_u; cbn; try field.
Qed.

(** ** C53 *)

(** The isentropic density lies on the isentrope through the reference state: p/rho^gamma is kept. *)
Theorem c53_isentrope : forall cfg s ref U Uref v, 1 < s_gamma cfg -> valid s -> valid ref ->
  describes (s_gamma cfg) s U -> describes (s_gamma cfg) ref Uref ->
  f_p U <> None -> f_p Uref <> None ->
  isentropic_density cfg U Uref = Ok v ->
  0 < v /\ st_p s / Rpower v (s_gamma cfg) = st_p ref / Rpower (st_rho ref) (s_gamma cfg).
Proof.
  intros cfg s ref U W v G V Vr D DW N Nr H. unfold isentropic_density in H. apply equation_ok in H. unfold eos_isentropic_density in H.
  destruct (f_p U) as [p|] eqn:E1; [|contradiction]. destruct (f_p W) as [p0|] eqn:E2; [|contradiction].
  destruct (f_rho W) as [r|] eqn:E3.
  2:{ destruct (f_T U); discriminate H. }
  fields D. apply Gp in E1. clear Grho Gu Gm GT GrE GE GrEi GEi GrEk GEk GrH GH Gc Gp. fields DW. apply Gp in E2. apply Grho in E3. subst p p0 r.
  destruct V as [V1 V2], Vr as [W1 W2]. inversion H; subst v.
  assert (P : 0 < Rpower (st_p s / st_p ref) (1 / s_gamma cfg)) by (apply exp_pos).
  split; [apply Rmult_lt_0_compat; assumption|].
  rewrite <- Rpower_mult_distr by assumption. rewrite Rpower_mult.
  replace (1 / s_gamma cfg * s_gamma cfg) with 1 by (field; lra).
  rewrite Rpower_1 by (apply Rdiv_lt_0_compat; lra).
  pose proof (exp_pos (s_gamma cfg * ln (st_rho ref))) as Q; fold (Rpower (st_rho ref) (s_gamma cfg)) in Q. field; lra.
Qed.
Print Assumptions c53_isentrope.

(** Computed from the temperatures the result also lies on the isentrope: with the pressure that the temperature and
    the returned density have by the gas law, p/rho^gamma is kept. *)
Theorem c53_isentrope_temperature : forall cfg s ref U Uref v, 1 < s_gamma cfg -> valid s -> valid ref ->
  describes (s_gamma cfg) s U -> describes (s_gamma cfg) ref Uref ->
  f_p U = None \/ f_p Uref = None ->
  isentropic_density cfg U Uref = Ok v ->
  let p := (s_gamma cfg - 1) / s_gamma cfg * v * q_T (s_gamma cfg) s in
  0 < v /\ p / Rpower v (s_gamma cfg) = st_p ref / Rpower (st_rho ref) (s_gamma cfg).
Proof.
  intros cfg s ref U W v G V Vr D DW N H. unfold isentropic_density in H. apply equation_ok in H. unfold eos_isentropic_density in H.
  assert (H' : match f_T U, f_rho W, f_T W with
    | Some T, Some rho, Some T0 => Some (rho * Rpower (T / T0) (1 / (s_gamma cfg - 1))) | _, _, _ => None end = Some v).
  { destruct (f_p U), (f_rho W), (f_p W); try exact H. destruct N; discriminate. }
  clear H. destruct (f_T U) as [T|] eqn:E1; [|discriminate H']. destruct (f_rho W) as [r|] eqn:E2; [|discriminate H'].
  destruct (f_T W) as [T0|] eqn:E3; [|discriminate H']. inversion H'; subst v; clear H'.
  fields D. apply GT in E1. clear Grho Gu Gm GT GrE GE GrEi GEi GrEk GEk GrH GH Gc Gp. fields DW. apply GT in E3. apply Grho in E2. subst T T0 r.
  set (g := s_gamma cfg) in *. destruct V as [V1 V2], Vr as [W1 W2].
  assert (A : 0 < q_T g s) by (unfold q_T; apply Rdiv_lt_0_compat; apply Rmult_lt_0_compat; lra).
  assert (B : 0 < q_T g ref) by (unfold q_T; apply Rdiv_lt_0_compat; apply Rmult_lt_0_compat; lra).
  set (x := q_T g s / q_T g ref). assert (X : 0 < x) by (apply Rdiv_lt_0_compat; assumption).
  set (r := Rpower x (1 / (g - 1))). assert (RP : 0 < r) by apply exp_pos.
  assert (rg : Rpower r g = x * r).
  { unfold r. rewrite Rpower_mult. rewrite <- (Rpower_1 x X) at 2. rewrite <- Rpower_plus. f_equal. field; lra. }
  split; [apply Rmult_lt_0_compat; assumption|].
  rewrite <- Rpower_mult_distr by assumption. rewrite rg.
  pose proof (exp_pos (g * ln (st_rho ref))) as Q; fold (Rpower (st_rho ref) g) in Q.
  assert (TS : q_T g s = x * q_T g ref) by (unfold x; field; lra). rewrite TS.
  unfold q_T. field. repeat split; lra.
Qed.
Print Assumptions c53_isentrope_temperature.

(** At the reference pressure the result is the reference density; it grows with the pressure. *)
Theorem c53_reference : forall cfg ref Uref U v, valid ref -> describes (s_gamma cfg) ref Uref ->
  f_p Uref <> None -> f_p U = Some (st_p ref) -> isentropic_density cfg U Uref = Ok v -> v = st_rho ref.
Proof.
  intros cfg ref W U v [V1 V2] D N E H. unfold isentropic_density in H. apply equation_ok in H. unfold eos_isentropic_density in H.
  destruct (f_p W) as [p0|] eqn:E2; [|contradiction]. rewrite E in H.
  destruct (f_rho W) as [r|] eqn:E3; [|destruct (f_T U); discriminate H]. fields D. apply Gp in E2; apply Grho in E3; subst.
  inversion H. replace (st_p ref / st_p ref) with 1 by (field; lra). unfold Rpower. rewrite ln_1, Rmult_0_r, exp_0. ring.
Qed.
Print Assumptions c53_reference.

(** Exactly the fields from which an answer is obtained. *)
Theorem c53_determined : forall cfg U Uref,
  ((f_p U <> None /\ f_rho Uref <> None /\ f_p Uref <> None) \/ (f_T U <> None /\ f_rho Uref <> None /\ f_T Uref <> None) ->
     exists v, isentropic_density cfg U Uref = Ok v) /\
  (~ ((f_p U <> None /\ f_rho Uref <> None /\ f_p Uref <> None) \/ (f_T U <> None /\ f_rho Uref <> None /\ f_T Uref <> None)) ->
     isentropic_density cfg U Uref = Err ValueError).
Proof.
  intros cfg U W; unfold isentropic_density, eos_isentropic_density; destruct (f_p U), (f_rho W), (f_p W), (f_T U), (f_T W); cbn; split; intros H;
    try (eexists; reflexivity); try reflexivity; exfalso;
    repeat match goal with H : _ \/ _ |- _ => destruct H | H : _ /\ _ |- _ => destruct H end; try congruence;
    apply H; (left; repeat split; discriminate) || (right; repeat split; discriminate).
Qed.
Print Assumptions c53_determined.

Example c53_example : exists v, isentropic_density air (mk_flow None None None (Some 7) None None None None None None None None None None) primitive_fields = Ok v.
Proof. eexists; reflexivity. Qed.
