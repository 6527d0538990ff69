(** C83: the choice of the scaling. *)
From Coq Require Import Reals String List Arith Bool Lia Lra.
From Coquelicot Require Import Coquelicot.
From Verif Require Import Base M_Bla M_Flow M_Formulation M_Weak M_Mixed S_Flow S_Chars S_Formulation S_Scaling S_Stress S_Weak S_Mixed S_Turn S_Units L_Flow L_Formulation L_Weak P_Eos P_Chars P_Jacobian P_Split P_Riemann P_Boundary P_Unknowns L_Small L_Curve L_Turn P_Stress P_Trace L_Turn2 P_Mixed P_Cbc P_Scaling P_Turn P_Turn2 L_Units.
From Verif Require Import S_Formulation.
Import ListNotations.
Open Scope R_scope.
Open Scope list_scope.

Lemma cancel_div k x y : k <> 0 -> k * x / (k * y) = x / y.
Proof. intros K. unfold Rdiv. rewrite Rinv_mult. set (z := / y). field. exact K. Qed.

(** ** Reference values *)

Lemma reynolds_convert s sc re : 0 < s_mach s -> reference_reynolds_number s = Ok re -> reference_reynolds_number (with_scaling s sc) = Ok (re / unit_ratio s sc).
Proof.
  intros M H. unfold reference_reynolds_number, reynolds_number in *. cbn [with_scaling s_law s_reynolds s_scaling s_mach].
  destruct (s_law s); [discriminate H| |]; cbn [bind] in *; apply ok_inj in H; subst re; f_equal;
    change (velocity_magnitude sc (s_mach s)) with (farfield_speed sc (s_mach s)); change (velocity_magnitude (s_scaling s) (s_mach s)) with (farfield_speed (s_scaling s) (s_mach s));
    rewrite (unit_ratio_speed s sc M); pose proof (unit_ratio_pos s sc M); pose proof (speed_pos (s_scaling s) (s_mach s) M); field; split; lra.
Qed.

Lemma viscosity_convert s sc U mu : 0 < s_mach s -> viscosity s U = Ok mu -> viscosity (with_scaling s sc) (convert_flow (unit_ratio s sc) U) = Ok mu.
Proof.
  intros M H. pose proof (unit_ratio_pos s sc M) as A. set (a := unit_ratio s sc) in *. unfold viscosity, law_viscosity in *. cbn [with_scaling s_law s_mach s_scaling s_ref_T convert_flow f_T].
  destruct (s_law s) as [| |meas]; [discriminate H|exact H|]. destruct (f_T U) as [T|]; [|discriminate H]. cbn [option_map].
  rewrite (sound_ok s M) in H. pose proof (sound_ok (with_scaling s sc) M) as Sc'. cbn [with_scaling s_scaling s_mach] in Sc'. rewrite Sc'. cbn [bind] in H |- *.
  rewrite (unit_ratio_sound s sc M). fold a. cbn in H |- *. apply ok_inj in H. subst mu.
  set (c := farfield_sound (s_scaling s) (s_mach s)) in *. set (g := s_gamma s) in *. set (z := (g - 1)) in *.
  replace (a * c * (a * c * 1) / z) with (a * a * (c * (c * 1) / z)) by (unfold Rdiv; ring). set (t := c * (c * 1) / z). set (q := meas / s_ref_T s).
  assert (N : a * a <> 0) by nra. rewrite (cancel_div (a * a) T t N).
  replace (a * a * t + q * (a * a * t)) with (a * a * (t + q * t)) by ring. replace (a * a * T + q * (a * a * t)) with (a * a * (T + q * t)) by ring.
  f_equal. set (r := Rpower (T / t) (3 / 2)). replace (r * (a * a * (t + q * t))) with (a * a * (r * (t + q * t))) by ring. now rewrite cancel_div.
Qed.

Lemma full_convert s sc st : 1 < s_gamma s -> 0 < s_mach s -> valid st ->
  full_fields (with_scaling s sc) (convert_state (unit_ratio s sc) st) = convert_flow (unit_ratio s sc) (full_fields s st).
Proof.
  intros G M V. pose proof (unit_ratio_pos s sc M) as A. set (a := unit_ratio s sc) in *. unfold full_fields, convert_flow.
  cbn [f_rho f_u f_rho_u f_p f_T f_rho_E f_E f_rho_Ei f_Ei f_rho_Ek f_Ek f_rho_H f_H f_c option_map with_scaling s_gamma].
  rewrite (convert_T _ a st G V), (convert_c _ a st G A V), (convert_rho_E _ a st G V), (convert_rho_u a st).
  assert (Ek : q_rho_Ek (convert_state a st) = a * a * q_rho_Ek st) by (unfold q_rho_Ek; rewrite convert_Ek; cbn; ring).
  assert (Ei : q_rho_Ei (s_gamma s) (convert_state a st) = a * a * q_rho_Ei (s_gamma s) st) by (unfold q_rho_Ei; cbn; field; lra).
  rewrite Ek, Ei. cbn [convert_state st_rho st_u st_p]. repeat f_equal; try ring.
Qed.

(** Far field states and Mach numbers are the same, and so is the viscosity; the reference Reynolds number goes with the inverse of the velocity. *)
Theorem c83_reference : forall s sc, 1 < s_gamma s -> 0 < s_mach s ->
  let a := unit_ratio s sc in
  0 < a /\
  (forall direction V, get_farfield_state s direction = Ok V -> get_farfield_state (with_scaling s sc) direction = Ok (convert_flow a V)) /\
  (forall re, reference_reynolds_number s = Ok re -> reference_reynolds_number (with_scaling s sc) = Ok (re / a)) /\
  (forall U mu, viscosity s U = Ok mu -> viscosity (with_scaling s sc) (convert_flow a U) = Ok mu) /\
  (forall st, valid st -> length (st_u st) = s_dim s ->
     get_local_mach_number (with_scaling s sc) false (convert_flow a (full_fields s st)) = get_local_mach_number s false (full_fields s st)).
Proof.
  intros s sc G M a. pose proof (unit_ratio_pos s sc M) as A. fold a in A. split; [exact A|]. repeat match goal with |- _ /\ _ => split end.
  - intros direction V H. unfold get_farfield_state in *. rewrite (sound_ok s M) in H. pose proof (sound_ok (with_scaling s sc) M) as Sc'. cbn [with_scaling s_scaling s_mach] in Sc' |- *. rewrite Sc'.
    rewrite (unit_ratio_sound s sc M). fold a. cbn [bind] in H |- *. change (s_dim (with_scaling s sc)) with (s_dim s). destruct (length direction =? s_dim s)%nat; [|discriminate H].
    set (c := farfield_sound (s_scaling s) (s_mach s)) in *. cbn in H |- *. apply ok_inj in H. subst V. unfold convert_flow. cbn. unfold scaling_velocity.
    change (velocity_magnitude sc (s_mach s)) with (farfield_speed sc (s_mach s)). change (velocity_magnitude (s_scaling s) (s_mach s)) with (farfield_speed (s_scaling s) (s_mach s)).
    rewrite (unit_ratio_speed s sc M). fold a. set (v := farfield_speed (s_scaling s) (s_mach s)). set (e := unit_vector direction).
    replace (vscale (a * v) e) with (vscale a (vscale v e)) by (unfold vscale; rewrite map_map; apply map_ext; intros; ring). rewrite convert_square. set (k := inner (vscale v e) (vscale v e)).
    unfold scaling_density. do 2 f_equal; f_equal; field; lra.
  - intros re H. now apply reynolds_convert.
  - intros U mu H. now apply viscosity_convert.
  - intros st V Dim. unfold get_local_mach_number. cbn. f_equal. rewrite convert_square, sqrt_mult, sqrt_square; [|lra|nra|apply inner_nonneg]. apply cancel_div. lra.
Qed.
Print Assumptions c83_reference.

(** ** The fluxes *)

(** The numerical convective flux of the same flow in the other scaling, with every Riemann solver: mass, momentum and energy through a facet per time. *)
Theorem c83_flux : forall s sc st U n f, 1 < s_gamma s -> 0 < s_mach s -> valid st -> length (st_u st) = s_dim s -> length U = (s_dim s + 2)%nat ->
  length n = s_dim s -> inner n n = 1 ->
  let a := unit_ratio s sc in
  get_convective_numerical_flux s U (conservative_list (s_gamma s) st) n = Ok f ->
  length f = (s_dim s + 2)%nat /\
  get_convective_numerical_flux (with_scaling s sc) (convert (s_dim s) a U) (convert (s_dim s) a (conservative_list (s_gamma s) st)) n = Ok (vscale a (convert (s_dim s) a f)).
Proof.
  intros s sc st U n f G M V Dim LU Ln N a E. pose proof (unit_ratio_pos s sc M) as A. fold a in A.
  assert (LH : length (conservative_list (s_gamma s) st) = (s_dim s + 2)%nat) by (rewrite conservative_list_length; lia).
  rewrite <- (convert_list (s_gamma s) a st G V (s_dim s) Dim). set (st' := convert_state a st).
  pose proof (convert_valid a st A V) as V'. fold st' in V'. pose proof (convert_dim a st (s_dim s) Dim) as Dim2. fold st' in Dim2.
  pose proof (q_c_pos (s_gamma s) st G V) as C0.
  destruct (Nat.eq_dec (s_dim s) 2) as [D2|D2].
  - (* waves *)
    destruct (unit_two n ltac:(congruence) N) as (n0 & n1 & N2). destruct (two_entries (st_u st) ltac:(congruence)) as (ux & uy & Eu).
    rewrite (flux_value s st ux uy n0 n1 n G V Eu D2 N2) in E. apply ok_inj in E. rewrite D2 in LU, LH, Dim |- *.
    split; [rewrite <- E; reflexivity|].
    change (conservative_list (s_gamma s) st') with (conservative_list (s_gamma (with_scaling s sc)) st').
    rewrite (flux_value (with_scaling s sc) st' _ _ n0 n1 n G V' (convert_velocity a st ux uy Eu) D2 N2). f_equal.
    apply scaled_make; [reflexivity|]. cbn [Nat.add]. intros i I. rewrite four_list_nth by exact I. change (s_gamma (with_scaling s sc)) with (s_gamma s).
    unfold st'. rewrite (convert_flux (s_gamma s) a st G V 2 n i Dim I), (convert_c (s_gamma s) a st G A V), (convert_list (s_gamma s) a st G V 2 Dim).
    rewrite (convert_vsub 2 a U) by assumption. rewrite <- E, four_list_nth by exact I.
    set (P := PP (s_gamma s) (st_rho (convert_state a st)) (a * ux) (a * uy) (a * q_c (s_gamma s) st) n0 n1). set (Q := QQ (s_gamma s) (st_rho (convert_state a st)) (a * ux) (a * uy) (a * q_c (s_gamma s) st) n0 n1).
    change (s_riemann (with_scaling s sc)) with (s_riemann s).
    rewrite (wave_same P Q (dissipation (s_riemann s) (a * ux * n0 + a * uy * n1) (a * q_c (s_gamma s) st)) (fun k => a * dissipation (s_riemann s) (ux * n0 + uy * n1) (q_c (s_gamma s) st) k)).
    2:{ intros k K. rewrite <- dissipation_scale by assumption. f_equal. ring. }
    rewrite wave_scaled, vscale_nth.
    assert (EP : P = wP s (convert_state a st) n) by (unfold P, wP; rewrite (convert_velocity a st ux uy Eu), (convert_c (s_gamma s) a st G A V); destruct N2 as [-> _]; reflexivity).
    assert (EQ : Q = wQ s (convert_state a st) n) by (unfold Q, wQ; rewrite (convert_velocity a st ux uy Eu), (convert_c (s_gamma s) a st G A V); destruct N2 as [-> _]; reflexivity).
    rewrite EP, EQ. rewrite (wave_convert s a st ux uy n0 n1 n G A V Eu N2) by (rewrite vsub_length, LU, LH; reflexivity). rewrite convert_nth by exact I.
    rewrite (wP_here s st ux uy n0 n1 n Eu N2), (wQ_here s st ux uy n0 n1 n Eu N2). ring.
  - (* one number *)
    assert (Rs : s_riemann s = LaxFriedrich \/ s_riemann s = HLL).
    { destruct (s_riemann s) eqn:R; auto; exfalso; pose proof (proj2 (c47_exists s U st n G V Dim Ln) D2) as X; rewrite R in X;
        specialize (X ltac:(discriminate) ltac:(discriminate)); rewrite E in X; discriminate X. }
    destruct (scalar_value s st U n G V Dim Ln LU Rs) as (f1 & E1 & L1 & H1). rewrite E in E1. apply ok_inj in E1. subst f1. split; [exact L1|].
    destruct (scalar_value (with_scaling s sc) st' (convert (s_dim s) a U) n G V' Dim2 Ln (convert_length _ _ _) Rs) as (f2 & E2 & L2 & H2).
    change (s_gamma (with_scaling s sc)) with (s_gamma s) in E2. rewrite E2. f_equal. apply scaled_make; [exact L2|]. intros i I. rewrite (H2 i I), (H1 i I). change (s_gamma (with_scaling s sc)) with (s_gamma s). change (s_riemann (with_scaling s sc)) with (s_riemann s).
    unfold st'. rewrite (convert_flux (s_gamma s) a st G V (s_dim s) n i Dim I), (convert_c (s_gamma s) a st G A V), (convert_list (s_gamma s) a st G V (s_dim s) Dim), !convert_nth by exact I.
    cbn [convert_state st_u]. rewrite convert_speed, dissipation_scale by assumption. ring.
Qed.
Print Assumptions c83_flux.

Section Diffusion.
Variables (s : settings) (sc : scaling) (st : state) (dU dU' : grads).
Hypothesis G : 1 < s_gamma s.
Hypothesis M : 0 < s_mach s.
Hypothesis V : valid st.
Hypothesis Dim : length (st_u st) = s_dim s.
Notation a := (unit_ratio s sc).
Hypothesis T : converted_gradients s a dU dU'.

Lemma diffusive_flux_convert F : get_diffusive_flux s false (full_fields s st) dU = Ok F ->
  rows F = (s_dim s + 2)%nat /\ cols F = s_dim s /\ length (entries F) = ((s_dim s + 2) * s_dim s)%nat /\
  exists F', get_diffusive_flux (with_scaling s sc) false (full_fields (with_scaling s sc) (convert_state a st)) dU' = Ok F' /\
    rows F' = (s_dim s + 2)%nat /\ cols F' = s_dim s /\ length (entries F') = ((s_dim s + 2) * s_dim s)%nat /\
    forall i j, (i < s_dim s + 2)%nat -> (j < s_dim s)%nat -> entry F' i j = a * (weight (s_dim s) a i * entry F i j).
Proof.
  intros E. destruct (diffusive_numbers _ _ _ _ E) as (mu & re & pr & Em & Er & Ep). destruct T as (eps & dT & H1 & H2). pose proof (unit_ratio_pos s sc M) as A.
  destruct (c51_flux s st (full_fields s st) dU eps dT mu re pr G V (full_describes s st) (full_velocity s st) Dim H1 Em Er Ep) as (F1 & E1 & R1 & C1 & L1 & B1).
  rewrite E in E1. apply ok_inj in E1. subst F1. split; [exact R1|]. split; [exact C1|]. split; [exact L1|].
  pose proof (viscosity_convert s sc _ mu M Em) as Em'. rewrite <- (full_convert s sc st G M V) in Em'.
  destruct (c51_flux (with_scaling s sc) (convert_state a st) (full_fields (with_scaling s sc) (convert_state a st)) dU' (scale a eps) (vscale (a * a) dT) mu (re / a) pr G (convert_valid a st A V)
    (full_describes (with_scaling s sc) (convert_state a st)) (full_velocity (with_scaling s sc) _) (convert_dim a st _ Dim) H2 Em' (reynolds_convert s sc re M Er) Ep) as (F' & E' & R2 & C2 & L2 & B2).
  exists F'. split; [exact E'|]. split; [exact R2|]. split; [exact C2|]. split; [exact L2|]. cbn zeta in B1, B2. cbn [with_scaling s_dim] in *. intros i j I J.
  destruct (B2 j J) as (Z0 & Z1 & Z2). destruct (B1 j J) as (Y0 & Y1 & Y2).
  assert (Inv : / (re / a) = a * / re) by (unfold Rdiv; rewrite Rinv_mult, Rinv_inv; ring).
  destruct (weight_parts (s_dim s) a) as (W0 & W1 & W2).
  destruct i as [|i]; [rewrite Z0, Y0; ring|]. destruct (Nat.eq_dec i (s_dim s)) as [->|Ni].
  - replace (S (s_dim s)) with (s_dim s + 1)%nat by lia. rewrite Z2, Y2, W2, vscale_nth. rewrite !Rmult_plus_distr_l, <- !total_scale. f_equal.
    + apply total_ext. intros k K. cbn [convert_state st_u]. rewrite scale_entry, vscale_nth. unfold Rdiv at 1. rewrite Inv. unfold Rdiv. ring.
    + unfold Rdiv at 1. rewrite Rinv_mult, Inv. unfold Rdiv. rewrite Rinv_mult. ring.
  - replace (S i) with (i + 1)%nat at 2 by lia. rewrite W1 by lia. rewrite Z1, Y1 by lia. rewrite scale_entry. unfold Rdiv at 1. rewrite Inv. unfold Rdiv. ring.
Qed.

Lemma diffusive_numerical_convert U n f : length U = (s_dim s + 2)%nat -> length n = s_dim s ->
  get_diffusive_numerical_flux s U (conservative_list (s_gamma s) st) dU n = Ok f ->
  length f = (s_dim s + 2)%nat /\
  get_diffusive_numerical_flux (with_scaling s sc) (convert (s_dim s) a U) (convert (s_dim s) a (conservative_list (s_gamma s) st)) dU' n = Ok (vscale a (convert (s_dim s) a f)).
Proof.
  intros LU Ln E. pose proof (unit_ratio_pos s sc M) as A. rewrite <- (convert_list (s_gamma s) a st G V (s_dim s) Dim). unfold get_diffusive_numerical_flux in *.
  assert (LH : length (conservative_list (s_gamma s) st) = (s_dim s + 2)%nat) by (rewrite conservative_list_length; lia).
  rewrite (fields_ok s st G V Dim) in E. pose proof (fields_ok (with_scaling s sc) (convert_state a st) G (convert_valid a st A V) (convert_dim a st _ Dim)) as Fo.
  change (s_gamma (with_scaling s sc)) with (s_gamma s) in Fo. rewrite Fo. cbn [bind] in E |- *.
  apply bind_ok in E as (tau & Et & E). apply bind_ok in E as (F & EF & E). apply ok_inj in E.
  destruct (diffusive_numbers _ _ _ _ EF) as (mu & re & pr & Em & Er & Ep).
  destruct (stabilisation_entries s (full_fields s st) mu re pr Em Er Ep) as (t1 & Et1 & R1 & C1 & B1). rewrite Et in Et1. apply ok_inj in Et1. subst t1.
  pose proof (viscosity_convert s sc _ mu M Em) as Em'. rewrite <- (full_convert s sc st G M V) in Em'.
  destruct (stabilisation_entries (with_scaling s sc) (full_fields (with_scaling s sc) (convert_state a st)) mu (re / a) pr Em' (reynolds_convert s sc re M Er) Ep) as (t2 & Et2 & R2 & C2 & B2).
  cbn [with_scaling s_dim] in R2, C2, B2.
  destruct (diffusive_flux_convert F EF) as (RF & CF & LF & F' & EF' & RF' & CF' & LF' & H). rewrite Et2, EF'. cbn [bind].
  assert (Dv : forall t W D i, rows t = (s_dim s + 2)%nat -> cols t = (s_dim s + 2)%nat -> (forall i j, (i < s_dim s + 2)%nat -> (j < s_dim s + 2)%nat -> entry t i j = delta i j * D i) ->
    (i < s_dim s + 2)%nat -> nth i (mvmul t W) 0 = D i * nth i W 0).
  { intros t W D i R C B I. rewrite mvmul_total by lia. rewrite C. rewrite (total_ext _ (fun k => D i * (delta i k * nth k W 0))) by (intros k K; rewrite B by assumption; ring).
    rewrite total_scale, (total_delta (fun k => nth k W 0)) by exact I. reflexivity. }
  rewrite <- E. split; [rewrite vsub_length, !mvmul_length, RF, R1; apply Nat.min_id|]. f_equal.
  apply scaled_make; [rewrite vsub_length, !mvmul_length, RF', R2; apply Nat.min_id|]. intros i I.
  rewrite (vsub_nth (mvmul F' _)) by (rewrite !mvmul_length, RF', R2; reflexivity). rewrite (vsub_nth (mvmul F _)) by (rewrite !mvmul_length, RF, R1; reflexivity).
  rewrite (Dv t2 _ (fun i => if (i =? 0)%nat then 0 else if (i <=? s_dim s)%nat then mu / (re / a) else mu / (re / a * pr)) i R2 C2 B2 I).
  rewrite (Dv tau _ (fun i => if (i =? 0)%nat then 0 else if (i <=? s_dim s)%nat then mu / re else mu / (re * pr)) i R1 C1 B1 I).
  rewrite !mvmul_total by lia. rewrite CF', CF. rewrite (convert_list (s_gamma s) a st G V (s_dim s) Dim), convert_vsub, convert_nth by assumption.
  rewrite (total_ext _ (fun j => a * (weight (s_dim s) a i * (entry F i j * nth j n 0)))) by (intros j J; rewrite H by assumption; ring). rewrite !total_scale.
  assert (Inv : / (re / a) = a * / re) by (unfold Rdiv; rewrite Rinv_mult, Rinv_inv; ring).
  destruct (i =? 0)%nat; [ring|]. destruct (i <=? s_dim s)%nat; unfold Rdiv in *; [|rewrite (Rinv_mult (re * / a)), (Rinv_mult re pr)]; rewrite Inv; ring.
Qed.
End Diffusion.

(** The numerical diffusive flux of the same flow in the other scaling. *)
Theorem c83_diffusion : forall s sc st dU dU' U n f, 1 < s_gamma s -> 0 < s_mach s -> valid st -> length (st_u st) = s_dim s -> length U = (s_dim s + 2)%nat ->
  length n = s_dim s ->
  let a := unit_ratio s sc in
  converted_gradients s a dU dU' ->
  get_diffusive_numerical_flux s U (conservative_list (s_gamma s) st) dU n = Ok f ->
  length f = (s_dim s + 2)%nat /\
  get_diffusive_numerical_flux (with_scaling s sc) (convert (s_dim s) a U) (convert (s_dim s) a (conservative_list (s_gamma s) st)) dU' n = Ok (vscale a (convert (s_dim s) a f)).
Proof. intros. eapply diffusive_numerical_convert; eassumption. Qed.
Print Assumptions c83_diffusion.
