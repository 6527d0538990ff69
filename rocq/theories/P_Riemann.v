(** C47: the stabilisation of the Riemann solvers and the convective numerical flux. *)
From Coq Require Import Reals List Arith Lra Lia Bool.
From Verif Require Import Base M_Bla M_Flow M_Formulation S_Flow S_Chars S_Formulation L_Flow L_Formulation P_Eos P_Chars P_Jacobian P_Split.
Import ListNotations.
Open Scope R_scope.

Lemma scalar_eigenvectors a P : shape 4 P -> eigenvectors 4 (scale a (idm 4)) P (fun _ => a).
Proof.
  intros S. split; [apply scale_shape, idm_shape|]. split; [exact S|]. intros i k I K.
  etransitivity; [apply total_ext; intros m M; rewrite scale_entry, idm_entry by assumption; rewrite Rmult_assoc; reflexivity|].
  rewrite total_scale, (total_delta (fun m => entry P m k)) by exact I. reflexivity.
Qed.

Lemma scaled_eigenvectors a A P l : eigenvectors 4 A P l -> eigenvectors 4 (scale a A) P (fun k => a * l k).
Proof.
  intros (SA & SP & E). split; [apply scale_shape, SA|]. split; [exact SP|]. intros i k I K.
  etransitivity; [apply total_ext; intros m M; rewrite scale_entry, Rmult_assoc; reflexivity|]. rewrite total_scale, E by assumption. ring.
Qed.

Lemma eigenvectors_ext A P l l' : (forall k, (k < 4)%nat -> l k = l' k) -> eigenvectors 4 A P l -> eigenvectors 4 A P l'.
Proof. intros E (SA & SP & H). split; [exact SA|]. split; [exact SP|]. intros i k I K. rewrite <- E by exact K. auto. Qed.

(** In two dimensions every solver damps the waves as documented. *)
Theorem c47_stabilisation : forall cfg U rho ux uy c n n0 n1,
  f_rho U = Some rho -> f_u U = Some [ux; uy] -> f_c U = Some c -> unit2 n n0 n1 -> rho <> 0 -> c <> 0 -> s_gamma cfg <> 1 ->
  exists P Pi, conservative_from_characteristic cfg U n = Ok P /\ inverse 4 P Pi /\
    forall r, damping (with_riemann cfg r) U n P (dissipation r (ux * n0 + uy * n1) c).
Proof.
  intros cfg U rho ux uy c n n0 n1 Er Eu Ec N R0 C0 G. set (un := ux * n0 + uy * n1).
  destruct (conservative_matrices cfg U rho ux uy c n0 n1 n Er Eu Ec N R0 C0 G) as (P & Pi & Inv & EP & Tr).
  exists P, Pi. split; [exact EP|]. split; [exact Inv|]. intros r.
  assert (Tr' : forall m, transform_characteristic_to_conservative (with_riemann cfg r) m U n = Ok (mmul (mmul P m) Pi)) by (intros m; exact (Tr m)).
  assert (Vel : velocity false U = Ok [ux; uy]) by (unfold velocity; rewrite Eu; reflexivity).
  assert (Snd : speed_of_sound (with_riemann cfg r) U = Ok c) by (unfold speed_of_sound, eos_speed_of_sound; rewrite Ec; reflexivity).
  assert (Inn : inner [ux; uy] n = un) by (destruct N as [-> _]; unfold un; cbn; ring).
  assert (Ln : length n = 2%nat) by (destruct N as [-> _]; reflexivity).
  assert (SP : shape 4 P) by apply Inv.
  unfold damping, get_convective_stabilisation_matrix. cbn [s_riemann with_riemann].
  destruct r as [| | | | theta_0].
  - unfold get_conservative_convective_jacobian. rewrite (velocities U ux uy c n0 n1 n Eu Ec N) by discriminate. cbn [bind].
    eexists. split; [apply Tr'|]. apply (waves_eigenvectors P Pi (fun k => part Outgoing (wave_speed un c k)) Inv).
  - rewrite Vel, Snd. cbn [bind]. rewrite Inn, Ln, abs_ok. eexists. split; [reflexivity|]. apply scalar_eigenvectors, SP.
  - rewrite (velocities U ux uy c n0 n1 n Eu Ec N) by discriminate. cbn [bind].
    eexists. split; [apply Tr'|]. apply (waves_eigenvectors P Pi (fun k => part Absolute (wave_speed un c k)) Inv).
  - rewrite Vel, Snd. cbn [bind]. rewrite Inn, Ln, max_ok. eexists. split; [reflexivity|]. apply scalar_eigenvectors, SP.
  - rewrite Vel, Snd. cbn [bind]. rewrite Inn, Ln, !max_ok, !abs_ok, Tr'. cbn [bind]. eexists. split; [reflexivity|].
    cbn [repeat app]. eapply eigenvectors_ext; [|apply scaled_eigenvectors, conjugate_eigenvectors, Inv].
    intros k K. four k K; reflexivity.
Qed.
Print Assumptions c47_stabilisation.

(** Lax-Friedrichs and HLL multiply all variables with one number, in every dimension. *)
Theorem c47_scalar : forall cfg zeros s U n, 1 < s_gamma cfg -> valid s -> describes (s_gamma cfg) s U -> (zeros = true -> given (f_rho U) 0) ->
  (f_Ei U = None \/ f_T U <> None \/ (f_rho U <> None /\ f_p U <> None)) ->
  s_riemann cfg = LaxFriedrich \/ s_riemann cfg = HLL ->
  forall tau, get_convective_stabilisation_matrix cfg zeros U n = Ok tau ->
  shape (length n + 2) tau /\
  forall i j, (i < length n + 2)%nat -> (j < length n + 2)%nat ->
    entry tau i j = dissipation (s_riemann cfg) (inner (st_u s) n) (q_c (s_gamma cfg) s) i * delta i j.
Proof.
  intros cfg zeros s U n G V D Z NE R tau H. unfold get_convective_stabilisation_matrix in H.
  destruct R as [R|R]; rewrite R in H |- *; apply bind_ok in H as (u & Hu & H); apply bind_ok in H as (c & Hc & H); apply ok_inj in H; subst tau;
    apply (velocity_ok _ _ _ G V D zeros u Z) in Hu; apply (speed_of_sound_ok _ _ _ G V D c NE) in Hc; subst u c;
    (split; [apply scale_shape, idm_shape|]); intros i j I J; rewrite scale_entry, idm_entry by assumption; cbn [dissipation];
    rewrite ?abs_ok, ?max_ok; reflexivity.
Qed.
Print Assumptions c47_scalar.

(** The solvers ordered by their dissipation of each wave. *)
Theorem c47_order : forall cfg U rho ux uy c n n0 n1 theta_0,
  f_rho U = Some rho -> f_u U = Some [ux; uy] -> f_c U = Some c -> unit2 n n0 n1 -> rho <> 0 -> 0 < c -> s_gamma cfg <> 1 -> theta_0 <= 1 ->
  exists P lU lR lE lH lL,
    damping (with_riemann cfg Upwind) U n P lU /\ damping (with_riemann cfg Roe) U n P lR /\ damping (with_riemann cfg (HLLEM theta_0)) U n P lE /\
    damping (with_riemann cfg HLL) U n P lH /\ damping (with_riemann cfg LaxFriedrich) U n P lL /\
    forall k, (k < 4)%nat -> 0 <= lU k /\ lU k <= lR k <= lL k /\ lU k <= lE k <= lH k /\ lH k <= lL k /\ 0 < lL k.
Proof.
  intros cfg U rho ux uy c n n0 n1 t Er Eu Ec N R0 C0 G T.
  destruct (c47_stabilisation cfg U rho ux uy c n n0 n1 Er Eu Ec N R0 ltac:(lra) G) as (P & Pi & _ & _ & Dm).
  exists P, (dissipation Upwind (ux * n0 + uy * n1) c), (dissipation Roe (ux * n0 + uy * n1) c), (dissipation (HLLEM t) (ux * n0 + uy * n1) c),
    (dissipation HLL (ux * n0 + uy * n1) c), (dissipation LaxFriedrich (ux * n0 + uy * n1) c).
  do 5 (split; [apply Dm|]). clear - C0 T. generalize (ux * n0 + uy * n1). intros un k K.
  assert (A : Rabs un = un \/ Rabs un = - un) by (unfold Rabs; destruct (Rcase_abs un); auto).
  assert (A0 : 0 <= Rabs un) by apply Rabs_pos. pose proof (Rle_abs un) as A1. pose proof (Rle_abs (- un)) as A2. rewrite Rabs_Ropp in A2.
  assert (Th : Rabs un / (Rabs un + c) <= 1) by (apply Rmult_le_reg_r with (Rabs un + c); [lra|]; unfold Rdiv; rewrite Rmult_assoc, Rinv_l by lra; lra).
  assert (Tm : Rabs un / (Rabs un + c) <= Rmax (Rabs un / (Rabs un + c)) t <= 1) by (split; [apply Rmax_l|apply Rmax_lub; assumption]).
  assert (Hm : 0 <= Rmax (un + c) 0 /\ un + c <= Rmax (un + c) 0 /\ Rmax (un + c) 0 <= Rabs un + c) by (unfold Rmax; destruct (Rle_dec (un + c) 0); lra).
  assert (E1 : Rmax un 0 <= Rmax (un + c) 0 * Rmax (Rabs un / (Rabs un + c)) t).
  { unfold Rmax at 1. destruct (Rle_dec un 0).
    - apply Rmult_le_pos; [apply Hm|]. apply Rle_trans with (Rabs un / (Rabs un + c)); [|apply Tm]. apply Rle_mult_inv_pos; lra.
    - assert (Ea : Rabs un = un) by lra. apply Rle_trans with ((un + c) * (Rabs un / (Rabs un + c))); [rewrite Ea; right; field; lra|].
      apply Rmult_le_compat; try lra; try apply Hm; try apply Tm. apply Rle_mult_inv_pos; lra. }
  assert (E2 : Rmax (un + c) 0 * Rmax (Rabs un / (Rabs un + c)) t <= Rmax (un + c) 0).
  { rewrite <- (Rmult_1_r (Rmax (un + c) 0)) at 2. apply Rmult_le_compat_l; [apply Hm|apply Tm]. }
  assert (W : forall x, 0 <= Rmax x 0 <= Rabs x) by (intros x; unfold Rmax, Rabs; destruct (Rle_dec x 0), (Rcase_abs x); lra).
  assert (W2 : Rabs (un - c) <= Rabs un + c) by (unfold Rabs at 1; destruct (Rcase_abs (un - c)); lra).
  assert (W3 : Rabs (un + c) <= Rabs un + c) by (unfold Rabs at 1; destruct (Rcase_abs (un + c)); lra).
  pose proof (W un). pose proof (W (un - c)). pose proof (W (un + c)).
  assert (W4 : Rmax (un - c) 0 <= Rmax (un + c) 0) by (unfold Rmax; destruct (Rle_dec (un - c) 0), (Rle_dec (un + c) 0); lra).
  four k K; cbn [dissipation wave_speed]; repeat split; lra.
Qed.
Print Assumptions c47_order.

(** The stabilisation is a square matrix. *)
Lemma transformed_shape cfg m U n r : transform_characteristic_to_conservative cfg m U n = Ok r -> rows r = 4%nat /\ length n = 2%nat.
Proof.
  unfold transform_characteristic_to_conservative. intros H. apply bind_ok in H as (P & HP & H). apply bind_ok in H as (Pi & _ & H). apply ok_inj in H. subst r.
  cbn [mmul tabulate rows]. unfold conservative_from_characteristic, eos_P in HP.
  destruct (f_rho U); [|discriminate HP]. destruct (f_c U); [|discriminate HP]. destruct (f_u U); [|discriminate HP].
  destruct n as [|d0 [|d1 [|d2 n]]]; try discriminate HP. destruct l as [|ux [|uy [|uz l]]]; try discriminate HP.
  cbn [equation] in HP. apply ok_inj in HP. subst P. split; reflexivity.
Qed.

Lemma stabilisation_rows cfg zeros U n tau : get_convective_stabilisation_matrix cfg zeros U n = Ok tau -> rows tau = (length n + 2)%nat.
Proof.
  unfold get_convective_stabilisation_matrix. intros H. destruct (s_riemann cfg).
  - unfold get_conservative_convective_jacobian in H. apply bind_ok in H as (l & _ & H). apply transformed_shape in H as [-> ->]. reflexivity.
  - apply bind_ok in H as (u & _ & H). apply bind_ok in H as (c & _ & H). apply ok_inj in H. subst tau. reflexivity.
  - apply bind_ok in H as (l & _ & H). apply transformed_shape in H as [-> ->]. reflexivity.
  - apply bind_ok in H as (u & _ & H). apply bind_ok in H as (c & _ & H). apply ok_inj in H. subst tau. reflexivity.
  - apply bind_ok in H as (u & _ & H). apply bind_ok in H as (c & _ & H). apply bind_ok in H as (m & Hm & H). apply ok_inj in H. subst tau.
    apply transformed_shape in Hm as [Hm ->]. cbn [scale rows]. rewrite Hm. reflexivity.
Qed.

Lemma physical_flux cfg s F n : 1 < s_gamma cfg -> valid s -> get_convective_flux cfg false (full_fields cfg s) = Ok F ->
  length (mvmul F n) = (length (st_u s) + 2)%nat /\
  forall i, (i < length (st_u s) + 2)%nat -> nth i (mvmul F n) 0 = normal_flux (s_gamma cfg) s n i.
Proof.
  intros G V HF. destruct (c45_flux cfg false s _ F G V (full_describes cfg s) ltac:(discriminate) HF) as (RF & CF & LF & EF).
  split; [rewrite mvmul_length; exact RF|]. intros i I. rewrite mvmul_total by lia. rewrite CF. unfold normal_flux. apply total_ext. intros j J.
  rewrite EF by assumption. reflexivity.
Qed.

(** Where the states on both sides agree, the numerical flux is the physical flux. *)
Theorem c47_consistent : forall cfg s n f, 1 < s_gamma cfg -> valid s -> length (st_u s) = s_dim cfg -> length n = s_dim cfg ->
  let U := conservative_list (s_gamma cfg) s in
  get_convective_numerical_flux cfg U U n = Ok f ->
  length f = (s_dim cfg + 2)%nat /\ forall i, (i < s_dim cfg + 2)%nat -> nth i f 0 = normal_flux (s_gamma cfg) s n i.
Proof.
  intros cfg s n f G V Dim Ln U H. unfold get_convective_numerical_flux, U in H. rewrite (fields_ok cfg s G V Dim) in H. cbn [bind] in H.
  apply bind_ok in H as (tau & Ht & H). apply bind_ok in H as (F & HF & H). apply ok_inj in H.
  apply stabilisation_rows in Ht. destruct (physical_flux cfg s F n G V HF) as [L E].
  rewrite vsub_self, mvmul_zero, vadd_zero in H by lia. subst f. rewrite <- Dim. split; assumption.
Qed.
Print Assumptions c47_consistent.

(** The numerical flux exists for every state, trace and direction: in two dimensions for all solvers, in other
    dimensions for the two solvers that need no eigenvectors; the others are not implemented. *)
Theorem c47_exists : forall cfg U s n, 1 < s_gamma cfg -> valid s -> length (st_u s) = s_dim cfg -> length n = s_dim cfg ->
  let r := get_convective_numerical_flux cfg U (conservative_list (s_gamma cfg) s) n in
  (s_dim cfg = 2%nat \/ s_riemann cfg = LaxFriedrich \/ s_riemann cfg = HLL -> exists f, r = Ok f) /\
  (s_dim cfg <> 2%nat -> s_riemann cfg <> LaxFriedrich -> s_riemann cfg <> HLL -> r = Err NotImplementedError).
Proof.
  intros cfg U s n G V Dim Ln r. unfold r, get_convective_numerical_flux. rewrite (fields_ok cfg s G V Dim). cbn [bind].
  assert (HF : exists F, get_convective_flux cfg false (full_fields cfg s) = Ok F) by (eexists; reflexivity). destruct HF as (F & HF).
  assert (HT : (s_dim cfg = 2%nat -> exists P, forall m, transform_characteristic_to_conservative cfg m (full_fields cfg s) n = Ok (P m)) /\
    (s_dim cfg <> 2%nat -> forall m, transform_characteristic_to_conservative cfg m (full_fields cfg s) n = Err NotImplementedError)).
  { split.
    - intros D2. rewrite D2 in Dim, Ln. destruct (st_u s) as [|ux [|uy [|uz u]]] eqn:Eu; try discriminate Dim. destruct n as [|n0 [|n1 [|n2 n]]]; try discriminate Ln.
      unfold transform_characteristic_to_conservative, conservative_from_characteristic, characteristic_from_conservative, eos_P, eos_Pinv, full_fields.
      cbn [f_rho f_c f_u]. rewrite Eu. cbn [equation bind]. eexists. intros m. reflexivity.
    - intros D2 m. unfold transform_characteristic_to_conservative. 
      destruct (c43_raises cfg (full_fields cfg s) n) as (_ & _ & _ & _ & H). destruct (H _ _ _ eq_refl eq_refl eq_refl ltac:(lia)) as (-> & _). reflexivity. }
  destruct HT as [HT1 HT2].
  assert (HV : forall t, t <> OtherSplit -> exists l, characteristic_velocities (full_fields cfg s) n t = Ok l).
  { intros t T. unfold characteristic_velocities, eos_characteristic_velocities, full_fields. cbn [f_u f_c]. rewrite !split_part by exact T. cbn [bind]. eexists. reflexivity. }
  assert (Vel : velocity false (full_fields cfg s) = Ok (st_u s)) by reflexivity.
  assert (Snd : speed_of_sound cfg (full_fields cfg s) = Ok (q_c (s_gamma cfg) s)) by reflexivity.
  unfold get_convective_stabilisation_matrix. split.
  - intros C. destruct (s_riemann cfg) eqn:Er.
    + destruct C as [C|[C|C]]; try discriminate C. destruct (HT1 C) as (P & HP). destruct (HV Outgoing ltac:(discriminate)) as (l & Hl).
      unfold get_conservative_convective_jacobian. rewrite Hl. cbn [bind]. rewrite HP, HF. cbn [bind]. eexists. reflexivity.
    + rewrite Vel, Snd. cbn [bind]. rewrite HF. eexists. reflexivity.
    + destruct C as [C|[C|C]]; try discriminate C. destruct (HT1 C) as (P & HP). destruct (HV Absolute ltac:(discriminate)) as (l & Hl).
      rewrite Hl. cbn [bind]. rewrite HP, HF. cbn [bind]. eexists. reflexivity.
    + rewrite Vel, Snd. cbn [bind]. rewrite HF. eexists. reflexivity.
    + destruct C as [C|[C|C]]; try discriminate C. destruct (HT1 C) as (P & HP).
      rewrite Vel, Snd. cbn [bind]. rewrite HP, HF. cbn [bind]. eexists. reflexivity.
  - intros D2 N1 N2. destruct (s_riemann cfg) eqn:Er; try contradiction.
    + destruct (HV Outgoing ltac:(discriminate)) as (l & Hl). unfold get_conservative_convective_jacobian. rewrite Hl. cbn [bind]. rewrite HT2 by exact D2. reflexivity.
    + destruct (HV Absolute ltac:(discriminate)) as (l & Hl). rewrite Hl. cbn [bind]. rewrite HT2 by exact D2. reflexivity.
    + rewrite Vel, Snd. cbn [bind]. rewrite HT2 by exact D2. reflexivity.
Qed.
Print Assumptions c47_exists.

Definition opposite (n : list R) : list R := map Ropp n.

(** The fluxes of two neighbours with the same trace differ only by the stabilisation: what the physical flux takes out
    of one element it brings into the other. *)
Theorem c47_conservative : forall cfg s U U' n f f' tau tau', 1 < s_gamma cfg -> valid s -> length (st_u s) = s_dim cfg -> length n = s_dim cfg ->
  length U = (s_dim cfg + 2)%nat -> length U' = (s_dim cfg + 2)%nat ->
  let Uhat := conservative_list (s_gamma cfg) s in
  let V := full_fields cfg s in
  get_convective_numerical_flux cfg U Uhat n = Ok f -> get_convective_numerical_flux cfg U' Uhat (opposite n) = Ok f' ->
  get_convective_stabilisation_matrix cfg false V n = Ok tau -> get_convective_stabilisation_matrix cfg false V (opposite n) = Ok tau' ->
  forall i, (i < s_dim cfg + 2)%nat ->
    nth i f 0 + nth i f' 0 = nth i (mvmul tau (vsub U Uhat)) 0 + nth i (mvmul tau' (vsub U' Uhat)) 0.
Proof.
  intros cfg s U U' n f f' tau tau' G V Dim Ln LU LU' Uhat W H H' Ht Ht' i I. unfold get_convective_numerical_flux, Uhat in H, H'. rewrite (fields_ok cfg s G V Dim) in H, H'. cbn [bind] in H, H'.
  fold W in H, H'. rewrite Ht in H. rewrite Ht' in H'. cbn [bind] in H, H'.
  apply bind_ok in H as (F & HF & H). apply ok_inj in H. subst f. apply bind_ok in H' as (F' & HF' & H'). apply ok_inj in H'. subst f'.
  rewrite HF in HF'. apply ok_inj in HF'. subst F'.
  destruct (physical_flux cfg s F n G V HF) as [L E]. destruct (physical_flux cfg s F (opposite n) G V HF) as [L' E'].
  apply stabilisation_rows in Ht, Ht'. unfold opposite in Ht'. rewrite map_length in Ht'.
  fold Uhat. rewrite !vadd_nth by (rewrite !mvmul_length in *; lia). rewrite E, E' by lia.
  assert (N : normal_flux (s_gamma cfg) s (opposite n) i = - normal_flux (s_gamma cfg) s n i).
  { unfold normal_flux, opposite. replace (- total (length (st_u s)) (fun j => euler_flux (s_gamma cfg) (length (st_u s)) s i j * nth j n 0)) with
      ((-1) * total (length (st_u s)) (fun j => euler_flux (s_gamma cfg) (length (st_u s)) s i j * nth j n 0)) by ring.
    rewrite <- total_scale. apply total_ext. intros j _. replace (nth j (map Ropp n) 0) with (- nth j n 0); [ring|].
    rewrite <- (map_nth Ropp n 0 j). rewrite Ropp_0. reflexivity. }
  rewrite N. ring.
Qed.
Print Assumptions c47_conservative.

(** With Lax-Friedrichs stabilisation the transmission condition makes the trace the mean of the two states. *)
Theorem c47_mean_trace : forall cfg s U U' n f f', 1 < s_gamma cfg -> valid s -> length (st_u s) = s_dim cfg -> length n = s_dim cfg ->
  length U = (s_dim cfg + 2)%nat -> length U' = (s_dim cfg + 2)%nat -> s_riemann cfg = LaxFriedrich ->
  let Uhat := conservative_list (s_gamma cfg) s in
  get_convective_numerical_flux cfg U Uhat n = Ok f -> get_convective_numerical_flux cfg U' Uhat (opposite n) = Ok f' ->
  ((forall i, (i < s_dim cfg + 2)%nat -> nth i f 0 + nth i f' 0 = 0) <->
   (forall i, (i < s_dim cfg + 2)%nat -> nth i Uhat 0 = (nth i U 0 + nth i U' 0) / 2)).
Proof.
  intros cfg s U U' n f f' G V Dim Ln LU LU' Rs Uhat H H'.
  assert (Inv : forall m, exists tau, get_convective_stabilisation_matrix cfg false (full_fields cfg s) m = Ok tau).
  { intros m. unfold get_convective_stabilisation_matrix. rewrite Rs. eexists. reflexivity. }
  destruct (Inv n) as (tau & Ht). destruct (Inv (opposite n)) as (tau' & Ht').
  assert (NE : f_Ei (full_fields cfg s) = None \/ f_T (full_fields cfg s) <> None \/ (f_rho (full_fields cfg s) <> None /\ f_p (full_fields cfg s) <> None)) by (left; reflexivity).
  pose proof (c47_conservative cfg s U U' n f f' tau tau' G V Dim Ln LU LU' H H' Ht Ht') as C. fold Uhat in C.
  destruct (c47_scalar cfg false s _ n G V (full_describes cfg s) ltac:(discriminate) NE (or_introl Rs) tau Ht) as [(R1 & C1 & _) E1].
  destruct (c47_scalar cfg false s _ (opposite n) G V (full_describes cfg s) ltac:(discriminate) NE (or_introl Rs) tau' Ht') as [(R2 & C2 & _) E2].
  rewrite Rs in E1, E2. cbn [dissipation] in E1, E2.
  assert (Lo : length (opposite n) = length n) by apply map_length. rewrite Lo in *.
  set (a := Rabs (inner (st_u s) n) + q_c (s_gamma cfg) s) in *.
  assert (Ea : Rabs (inner (st_u s) (opposite n)) + q_c (s_gamma cfg) s = a).
  { unfold a. f_equal. rewrite <- (Rabs_Ropp (inner (st_u s) n)). f_equal. unfold opposite. clear. generalize (st_u s). intros u. revert n.
    induction u as [|x u IH]; intros [|y n]; cbn; try ring. rewrite IH. ring. }
  rewrite Ea in E2. assert (A : 0 < a) by (unfold a; pose proof (q_c_pos _ _ G V); pose proof (Rabs_pos (inner (st_u s) n)); lra).
  assert (LUh : length Uhat = (s_dim cfg + 2)%nat) by (unfold Uhat; rewrite conservative_list_length; lia).
  assert (M : forall W, length W = (s_dim cfg + 2)%nat -> forall t, rows t = (length n + 2)%nat -> cols t = (length n + 2)%nat ->
    (forall i j, (i < length n + 2)%nat -> (j < length n + 2)%nat -> entry t i j = a * delta i j) ->
    forall i, (i < s_dim cfg + 2)%nat -> nth i (mvmul t (vsub W Uhat)) 0 = a * (nth i W 0 - nth i Uhat 0)).
  { intros W LW t Rt Ct Et i I. rewrite mvmul_total by lia. rewrite Ct.
    etransitivity; [apply total_ext; intros k K; rewrite Et by lia; rewrite Rmult_assoc; reflexivity|].
    rewrite total_scale, (total_delta (fun k => nth k (vsub W Uhat) 0)) by lia. rewrite vsub_nth by lia. reflexivity. }
  assert (K : forall i, (i < s_dim cfg + 2)%nat -> nth i f 0 + nth i f' 0 = a * (nth i U 0 + nth i U' 0 - 2 * nth i Uhat 0)).
  { intros i I. rewrite C by exact I. rewrite (M U LU tau R1 C1 E1 i I), (M U' LU' tau' R2 C2 E2 i I). ring. }
  split; intros Q i I; specialize (Q i I); rewrite (K i I) in *.
  - apply Rmult_integral in Q. destruct Q; lra.
  - rewrite Q. field.
Qed.
Print Assumptions c47_mean_trace.

Lemma opposite_waves cfg U rho ux uy c n n0 n1 :
  f_rho U = Some rho -> f_u U = Some [ux; uy] -> f_c U = Some c -> unit2 n n0 n1 -> rho <> 0 -> c <> 0 -> s_gamma cfg <> 1 ->
  exists P Pi P' Pi', conservative_from_characteristic cfg U n = Ok P /\ characteristic_from_conservative cfg U n = Ok Pi /\
    conservative_from_characteristic cfg U (opposite n) = Ok P' /\ characteristic_from_conservative cfg U (opposite n) = Ok Pi' /\
    shape 4 P /\ shape 4 Pi /\ shape 4 P' /\ shape 4 Pi' /\
    forall i j k, (i < 4)%nat -> (j < 4)%nat -> (k < 4)%nat ->
      entry P' i k * entry Pi' k j = (if (k =? 0)%nat then entry P i 3 * entry Pi 3 j else if (k =? 3)%nat then entry P i 0 * entry Pi 0 j else entry P i k * entry Pi k j).
Proof.
  intros Er Eu Ec [-> N] R0 C0 G. unfold conservative_from_characteristic, characteristic_from_conservative, eos_P, eos_Pinv. rewrite Er, Eu, Ec. cbn [opposite map equation].
  do 4 eexists. do 4 (split; [reflexivity|]). do 4 (split; [repeat split|]).
  intros i j k I J K. four k K; four i I; four j J; compute_entries; field; repeat split; lra.
Qed.

(** Turning the normal: the upwind stabilisations of two neighbours add up to the one of Roe, which does not depend on
    the sign of the normal. *)
Theorem c47_opposite : forall cfg U rho ux uy c n n0 n1,
  f_rho U = Some rho -> f_u U = Some [ux; uy] -> f_c U = Some c -> unit2 n n0 n1 -> rho <> 0 -> c <> 0 -> s_gamma cfg <> 1 ->
  exists up up' roe roe',
    get_convective_stabilisation_matrix (with_riemann cfg Upwind) false U n = Ok up /\
    get_convective_stabilisation_matrix (with_riemann cfg Upwind) false U (opposite n) = Ok up' /\
    get_convective_stabilisation_matrix (with_riemann cfg Roe) false U n = Ok roe /\
    get_convective_stabilisation_matrix (with_riemann cfg Roe) false U (opposite n) = Ok roe' /\
    forall i j, (i < 4)%nat -> (j < 4)%nat -> entry up i j + entry up' i j = entry roe i j /\ entry roe' i j = entry roe i j.
Proof.
  intros cfg U rho ux uy c n n0 n1 Er Eu Ec N R0 C0 G.
  assert (N' : unit2 (opposite n) (- n0) (- n1)) by (destruct N as [-> N]; split; [reflexivity|nra]).
  destruct (opposite_waves cfg U rho ux uy c n n0 n1 Er Eu Ec N R0 C0 G) as (P & Pi & P' & Pi' & EP & EPi & EP' & EPi' & SP & SPi & SP' & SPi' & O).
  unfold get_convective_stabilisation_matrix. cbn [with_riemann s_riemann]. unfold get_conservative_convective_jacobian.
  rewrite !(velocities U ux uy c n0 n1 n Eu Ec N), !(velocities U ux uy c (- n0) (- n1) (opposite n) Eu Ec N') by discriminate. cbn [bind].
  unfold transform_characteristic_to_conservative.
  change (conservative_from_characteristic (with_riemann cfg Upwind)) with (conservative_from_characteristic cfg).
  change (conservative_from_characteristic (with_riemann cfg Roe)) with (conservative_from_characteristic cfg).
  change (characteristic_from_conservative (with_riemann cfg Upwind)) with (characteristic_from_conservative cfg).
  change (characteristic_from_conservative (with_riemann cfg Roe)) with (characteristic_from_conservative cfg).
  rewrite EP, EPi, EP', EPi'. cbn [bind].
  do 4 eexists. do 4 (split; [reflexivity|]). intros i j I J.
  pose proof (waves_entry P Pi (fun k => part Outgoing (wave_speed (ux * n0 + uy * n1) c k)) i j SP SPi I J) as E1.
  pose proof (waves_entry P' Pi' (fun k => part Outgoing (wave_speed (ux * - n0 + uy * - n1) c k)) i j SP' SPi' I J) as E2.
  pose proof (waves_entry P Pi (fun k => part Absolute (wave_speed (ux * n0 + uy * n1) c k)) i j SP SPi I J) as E3.
  pose proof (waves_entry P' Pi' (fun k => part Absolute (wave_speed (ux * - n0 + uy * - n1) c k)) i j SP' SPi' I J) as E4.
  unfold waves in *. rewrite E1, E2, E3, E4. clear E1 E2 E3 E4.
  pose proof (O i j 0%nat I J ltac:(lia)) as O0. pose proof (O i j 1%nat I J ltac:(lia)) as O1. pose proof (O i j 2%nat I J ltac:(lia)) as O2. pose proof (O i j 3%nat I J ltac:(lia)) as O3.
  cbn [Nat.eqb] in O0, O1, O2, O3. cbn [total part wave_speed]. replace (ux * - n0 + uy * - n1) with (- (ux * n0 + uy * n1)) by ring.
  set (un := ux * n0 + uy * n1).
  assert (Am : forall x, Rmax x 0 + Rmax (- x) 0 = Rabs x) by (intros x; unfold Rmax, Rabs; destruct (Rle_dec x 0), (Rle_dec (- x) 0), (Rcase_abs x); lra).
  assert (F : forall (h : R -> R), entry P' i 0 * h (- un - c) * entry Pi' 0 j + entry P' i 1 * h (- un) * entry Pi' 1 j + entry P' i 2 * h (- un) * entry Pi' 2 j + entry P' i 3 * h (- un + c) * entry Pi' 3 j =
     entry P i 3 * entry Pi 3 j * h (- (un + c)) + entry P i 1 * entry Pi 1 j * h (- un) + entry P i 2 * entry Pi 2 j * h (- un) + entry P i 0 * entry Pi 0 j * h (- (un - c))).
  { intros h. replace (- un - c) with (- (un + c)) by ring. replace (- un + c) with (- (un - c)) by ring. rewrite <- O0, <- O1, <- O2, <- O3. ring. }
  pose proof (F (fun x => Rmax x 0)) as F1. pose proof (F Rabs) as F2. cbv beta in F1. rewrite !Rabs_Ropp in F2.
  split.
  - transitivity (0 + entry P i 0 * Rmax (un - c) 0 * entry Pi 0 j + entry P i 1 * Rmax un 0 * entry Pi 1 j + entry P i 2 * Rmax un 0 * entry Pi 2 j + entry P i 3 * Rmax (un + c) 0 * entry Pi 3 j
      + (entry P' i 0 * Rmax (- un - c) 0 * entry Pi' 0 j + entry P' i 1 * Rmax (- un) 0 * entry Pi' 1 j + entry P' i 2 * Rmax (- un) 0 * entry Pi' 2 j + entry P' i 3 * Rmax (- un + c) 0 * entry Pi' 3 j)); [ring|].
    rewrite F1, <- !Am. ring.
  - transitivity (entry P' i 0 * Rabs (- un - c) * entry Pi' 0 j + entry P' i 1 * Rabs (- un) * entry Pi' 1 j + entry P' i 2 * Rabs (- un) * entry Pi' 2 j + entry P' i 3 * Rabs (- un + c) * entry Pi' 3 j); [ring|].
    rewrite (F Rabs), !Rabs_Ropp. ring.
Qed.
Print Assumptions c47_opposite.

(** Two gases and a wall between them, with the stabilisations of all solvers. *)
Example c47_example :
  valid wave_state /\ unit2 [3 / 5; 4 / 5] (3 / 5) (4 / 5) /\
  (forall r, exists f, get_convective_numerical_flux (with_riemann air r) [1; 2; 3; 40] (conservative_list (7 / 5) wave_state) [3 / 5; 4 / 5] = Ok f) /\
  dissipation HLL (3 * (3 / 5) + 4 * (4 / 5)) 2 0 = 7 /\ dissipation Upwind (3 * (3 / 5) + 4 * (4 / 5)) 2 0 = 3.
Proof.
  split; [split; cbn; lra|]. split; [split; [reflexivity|lra]|]. split.
  - intros r. apply (c47_exists (with_riemann air r) [1; 2; 3; 40] wave_state [3 / 5; 4 / 5]); try reflexivity; [cbn; lra|split; cbn; lra|left; reflexivity].
  - split; cbn; rewrite Rmax_left by lra; field.
Qed.
