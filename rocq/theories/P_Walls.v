(** C61: solid walls let neither mass nor (inviscid walls) energy through, so that a closed box keeps its content. *)
From Coq Require Import Reals String List Arith Bool Lia Lra.
From Verif Require Import Base M_Bla M_Flow M_Formulation M_Weak S_Flow S_Chars S_Stress S_Formulation S_Weak L_Flow L_Formulation L_Weak P_Eos P_Chars P_Jacobian P_Split P_Riemann P_Boundary P_Stress P_Weak.
From Verif Require Import S_Formulation.
Import ListNotations.
Open Scope R_scope.
Open Scope list_scope.

(** ** The flux through a wall *)

Lemma numerical_flux_entries cfg w U n f tau : 1 < s_gamma cfg -> valid w -> length (st_u w) = s_dim cfg -> length n = s_dim cfg ->
  get_convective_numerical_flux cfg U (conservative_list (s_gamma cfg) w) n = Ok f ->
  get_convective_stabilisation_matrix cfg false (full_fields cfg w) n = Ok tau ->
  length f = (s_dim cfg + 2)%nat /\
  forall i, (i < s_dim cfg + 2)%nat -> nth i f 0 = normal_flux (s_gamma cfg) w n i + nth i (mvmul tau (vsub U (conservative_list (s_gamma cfg) w))) 0.
Proof.
  intros G V Dim Ln H Ht. unfold get_convective_numerical_flux in H. rewrite (fields_ok cfg w G V Dim) in H. cbn [bind] in H. rewrite Ht in H. cbn [bind] in H.
  apply bind_ok in H as (F & HF & H). apply ok_inj in H. subst f. destruct (physical_flux cfg w F n G V HF) as [L E]. apply stabilisation_rows in Ht.
  rewrite mvmul_length in L. split; [rewrite vadd_length, !mvmul_length; lia|]. intros i I.
  rewrite vadd_nth by (rewrite !mvmul_length; lia). rewrite E by lia. reflexivity.
Qed.

(** A flow along the wall transports neither mass nor energy through it. *)
Lemma tangential_flux g w n : length n = length (st_u w) -> inner (st_u w) n = 0 ->
  normal_flux g w n 0 = 0 /\ normal_flux g w n (length (st_u w) + 1) = 0.
Proof.
  intros Ln N. rewrite inner_total in N by auto. unfold normal_flux. split.
  - rewrite (total_ext _ (fun j => st_rho w * (nth j (st_u w) 0 * nth j n 0))) by (intros j _; unfold euler_flux; cbn [Nat.eqb]; ring). rewrite total_scale, N. ring.
  - rewrite (total_ext _ (fun j => (q_rho_E g w + st_p w) * (nth j (st_u w) 0 * nth j n 0))).
    + rewrite total_scale, N. ring.
    + intros j J. unfold euler_flux. replace (length (st_u w) + 1 =? 0)%nat with false by (symmetry; apply Nat.eqb_neq; lia).
      replace (length (st_u w) + 1 <=? length (st_u w))%nat with false by (symmetry; apply Nat.leb_gt; lia). ring.
Qed.

Lemma scalar_flux cfg w U n f : 1 < s_gamma cfg -> valid w -> length (st_u w) = s_dim cfg -> length n = s_dim cfg -> length U = (s_dim cfg + 2)%nat ->
  s_riemann cfg = LaxFriedrich \/ s_riemann cfg = HLL ->
  get_convective_numerical_flux cfg U (conservative_list (s_gamma cfg) w) n = Ok f ->
  exists a, forall i, (i < s_dim cfg + 2)%nat -> nth i f 0 = normal_flux (s_gamma cfg) w n i + a * (nth i U 0 - nth i (conservative_list (s_gamma cfg) w) 0).
Proof.
  intros G V Dim Ln LU Rs H.
  assert (Inv : exists tau, get_convective_stabilisation_matrix cfg false (full_fields cfg w) n = Ok tau).
  { unfold get_convective_stabilisation_matrix. destruct Rs as [-> | ->]; eexists; reflexivity. }
  destruct Inv as (tau & Ht).
  assert (NE : f_Ei (full_fields cfg w) = None \/ f_T (full_fields cfg w) <> None \/ (f_rho (full_fields cfg w) <> None /\ f_p (full_fields cfg w) <> None)) by (left; reflexivity).
  destruct (c47_scalar cfg false w _ n G V (full_describes cfg w) ltac:(discriminate) NE Rs tau Ht) as [(R1 & C1 & _) E1].
  destruct (numerical_flux_entries cfg w U n f tau G V Dim Ln H Ht) as [_ Ef].
  set (a := dissipation (s_riemann cfg) (inner (st_u w) n) (q_c (s_gamma cfg) w) 0).
  assert (E : forall k, dissipation (s_riemann cfg) (inner (st_u w) n) (q_c (s_gamma cfg) w) k = a) by (intros k; unfold a; destruct Rs as [-> | ->]; reflexivity).
  exists a. intros i I. rewrite Ef by exact I. f_equal.
  assert (LW : length (conservative_list (s_gamma cfg) w) = (s_dim cfg + 2)%nat) by (rewrite conservative_list_length; lia).
  rewrite mvmul_total by lia. rewrite C1.
  rewrite (total_ext _ (fun k => a * (delta i k * nth k (vsub U (conservative_list (s_gamma cfg) w)) 0))) by (intros k K; rewrite E1 by lia; rewrite E; ring).
  rewrite total_scale, (total_delta (fun k => nth k (vsub U (conservative_list (s_gamma cfg) w)) 0)) by lia. rewrite vsub_nth by lia. reflexivity.
Qed.

Lemma rho_nth g s : nth 0 (conservative_list g s) 0 = st_rho s.
Proof. reflexivity. Qed.

Lemma energy_nth g s : nth (length (st_u s) + 1) (conservative_list g s) 0 = q_rho_E g s.
Proof.
  rewrite conservative_list_nth by lia. unfold conservative. replace (length (st_u s) + 1 =? 0)%nat with false by (symmetry; apply Nat.eqb_neq; lia).
  replace (length (st_u s) + 1 <=? length (st_u s))%nat with false by (symmetry; apply Nat.leb_gt; lia). reflexivity.
Qed.

(** Lax-Friedrichs and HLL, any dimension: no mass and no energy through an inviscid wall or a symmetry. *)
Theorem c61_slip : forall cfg s n f, 1 < s_gamma cfg -> valid s -> length (st_u s) = s_dim cfg -> length n = s_dim cfg -> inner n n = 1 ->
  s_riemann cfg = LaxFriedrich \/ s_riemann cfg = HLL ->
  get_convective_numerical_flux cfg (conservative_list (s_gamma cfg) s) (conservative_list (s_gamma cfg) (slip s n (s_gamma cfg))) n = Ok f ->
  nth 0 f 0 = 0 /\ nth (s_dim cfg + 1) f 0 = 0.
Proof.
  intros cfg s n f G V Dim Ln N Rs H.
  destruct (c50_slip s n (s_gamma cfg) G V ltac:(lia) N) as (V' & L' & R' & U' & _ & E').
  destruct (scalar_flux cfg (slip s n (s_gamma cfg)) (conservative_list (s_gamma cfg) s) n f G V' ltac:(lia) Ln ltac:(rewrite conservative_list_length; lia) Rs H) as (a & Ea).
  destruct (tangential_flux (s_gamma cfg) (slip s n (s_gamma cfg)) n ltac:(lia) U') as [T0 T1].
  split.
  - rewrite Ea by lia. rewrite T0, !rho_nth, R'. ring.
  - rewrite Ea by lia. pose proof (energy_nth (s_gamma cfg) s) as N1. pose proof (energy_nth (s_gamma cfg) (slip s n (s_gamma cfg))) as N2.
    rewrite L', Dim in N2, T1. rewrite Dim in N1. rewrite T1, N1, N2, E'. ring.
Qed.
Print Assumptions c61_slip.

(** Diffusion carries no mass. *)
Lemma diffusion_carries_no_mass cfg U Uhat dU n q : get_diffusive_numerical_flux cfg U Uhat dU n = Ok q -> nth 0 q 0 = 0.
Proof.
  intros H. unfold get_diffusive_numerical_flux in H. apply bind_ok in H as (V & _ & H). apply bind_ok in H as (td & Htd & H). apply bind_ok in H as (G & HG & H). apply ok_inj in H. subst q.
  assert (T0 : nth 0 (mvmul td (vsub U Uhat)) 0 = 0).
  { unfold get_diffusive_stabilisation_matrix in Htd. apply bind_ok in Htd as (re & Er & Htd). apply bind_ok in Htd as (pr & Ep & Htd). apply bind_ok in Htd as (mu & Em & Htd).
    destruct (stabilisation_entries cfg V mu re pr Em Er Ep) as (td' & Ed & Rd & Cd & Hd). unfold get_diffusive_stabilisation_matrix in Ed. rewrite Er, Ep, Em in Ed. cbn [bind] in Ed. rewrite Htd in Ed. apply ok_inj in Ed. subst td'.
    rewrite mvmul_total, Cd by lia. rewrite (total_ext _ (fun _ => 0)), total_zero; [reflexivity|]. intros k K. rewrite Hd by lia. cbn [Nat.eqb]. ring. }
  assert (G0 : nth 0 (mvmul G n) 0 = 0).
  { unfold get_diffusive_flux in HG. apply bind_ok in HG as (u & _ & HG). apply bind_ok in HG as (tau & _ & HG). apply bind_ok in HG as (h & _ & HG). apply ok_inj in HG. subst G.
    rewrite mvmul_total by (cbn [rows]; lia). cbn [cols]. rewrite (total_ext _ (fun _ => 0)), total_zero; [reflexivity|]. intros k K. unfold entry. cbn [cols entries].
    change (0 * length u + k)%nat with k. rewrite app_nth1 by (now rewrite repeat_length). rewrite nth_repeat. ring. }
  revert T0 G0. generalize (mvmul G n), (mvmul td (vsub U Uhat)). intros [|a l] [|b l'] T0 G0; cbn [vsub nth] in *; lra.
Qed.

(** Lax-Friedrichs and HLL, any dimension: no mass through an isothermal wall, neither by convection nor by diffusion. *)
Theorem c61_isothermal : forall cfg s T n f, 1 < s_gamma cfg -> valid s -> length (st_u s) = s_dim cfg -> length n = s_dim cfg -> 0 < T ->
  s_riemann cfg = LaxFriedrich \/ s_riemann cfg = HLL ->
  let w := isothermal s (s_dim cfg) T (s_gamma cfg) in
  get_convective_numerical_flux cfg (conservative_list (s_gamma cfg) s) (conservative_list (s_gamma cfg) w) n = Ok f ->
  nth 0 f 0 = 0 /\
  forall dU q, get_diffusive_numerical_flux cfg (conservative_list (s_gamma cfg) s) (conservative_list (s_gamma cfg) w) dU n = Ok q -> nth 0 q 0 = 0.
Proof.
  intros cfg s T n f G V Dim Ln HT Rs w H.
  destruct (c50_isothermal_wall cfg s T (repeat 0 (s_dim cfg + 2)) G V Dim HT (repeat_length _ _)) as (V' & _ & _). fold w in V'.
  assert (L' : length (st_u w) = s_dim cfg) by apply repeat_length.
  assert (LU : length (conservative_list (s_gamma cfg) s) = (s_dim cfg + 2)%nat) by (rewrite conservative_list_length; lia).
  split.
  - destruct (scalar_flux cfg w _ n f G V' L' Ln LU Rs H) as (a & Ea).
    destruct (tangential_flux (s_gamma cfg) w n ltac:(lia)) as [T0 _]; [unfold w, isothermal; cbn [st_u]; apply P_Boundary.inner_zero|].
    rewrite Ea by lia. rewrite T0, !rho_nth. cbn. ring.
  - intros dU q Hq. exact (diffusion_carries_no_mass _ _ _ _ _ _ Hq).
Qed.
Print Assumptions c61_isothermal.

(** Two dimensions, every Riemann solver: the flux through an inviscid wall is half of what the flow would carry through it,
    times the difference of the dampings of the two sound waves. *)
Lemma slip_waves cfg s n n0 n1 ux uy f : 1 < s_gamma cfg -> valid s -> st_u s = [ux; uy] -> s_dim cfg = 2%nat -> unit2 n n0 n1 ->
  let w := slip s n (s_gamma cfg) in let c := q_c (s_gamma cfg) w in let l := dissipation (s_riemann cfg) 0 c in let un := inner (st_u s) n in
  get_convective_numerical_flux cfg (conservative_list (s_gamma cfg) s) (conservative_list (s_gamma cfg) w) n = Ok f ->
  nth 0 f 0 = st_rho s * un * (l 3%nat - l 0%nat) / (2 * c) /\
  nth 3 f 0 = st_rho s * un * (l 3%nat - l 0%nat) / (2 * c) * (c ^ 2 / (s_gamma cfg - 1) + inner (st_u w) (st_u w) / 2).
Proof.
  intros G V Eu D2 Nn w c l un H.
  assert (Dim : length (st_u s) = s_dim cfg) by (now rewrite Eu, D2).
  assert (Ln : length n = s_dim cfg) by (destruct Nn as [-> _]; now rewrite D2).
  assert (N : inner n n = 1) by (destruct Nn as [-> N]; cbn [inner]; lra).
  destruct (c50_slip s n (s_gamma cfg) G V ltac:(lia) N) as (V' & L' & R' & U' & _ & E'). fold w in V', L', R', U', E'.
  pose proof (q_c_pos _ _ G V') as C0. fold c in C0. destruct V' as [R0 P0]. rewrite R' in R0.
  destruct (st_u w) as [|wx [|wy [|wz u]]] eqn:Ew; try (exfalso; rewrite Eu in L'; discriminate L').
  assert (Un : wx * n0 + wy * n1 = 0) by (destruct Nn as [-> _]; cbn [inner] in U'; lra).
  assert (Er : f_rho (full_fields cfg w) = Some (st_rho s)) by (rewrite <- R'; reflexivity). assert (Ef : f_u (full_fields cfg w) = Some [wx; wy]) by (rewrite <- Ew; reflexivity).
  assert (Ec : f_c (full_fields cfg w) = Some c) by reflexivity.
  destruct (c47_stabilisation cfg (full_fields cfg w) (st_rho s) wx wy c n n0 n1 Er Ef Ec Nn ltac:(lra) ltac:(lra) ltac:(lra)) as (P & Pi & EP & _ & Dm).
  specialize (Dm (s_riemann cfg)). destruct Dm as (tau & Ht & (St & SP & Eig)).
  replace (with_riemann cfg (s_riemann cfg)) with cfg in Ht by (destruct cfg; reflexivity).
  assert (Dimw : length (st_u w) = s_dim cfg) by (now rewrite Ew, D2).
  destruct (numerical_flux_entries cfg w (conservative_list (s_gamma cfg) s) n f tau G (conj (eq_ind_r (fun x => 0 < x) R0 R') P0) Dimw Ln H Ht) as [_ Efl].
  destruct (tangential_flux (s_gamma cfg) w n ltac:(lia) ltac:(rewrite Ew; exact U')) as [T0 T1].
  (* the jump is a combination of the two sound waves *)
  assert (Jump : forall j, (j < 4)%nat -> nth j (vsub (conservative_list (s_gamma cfg) s) (conservative_list (s_gamma cfg) w)) 0 = st_rho s * un * c * (entry P j 3 - entry P j 0)).
  { unfold conservative_from_characteristic, eos_P in EP. rewrite Er, Ec, Ef in EP. destruct Nn as [-> Nn]. cbn [equation] in EP. apply ok_inj in EP. subst P.
    assert (Ex : [wx; wy] = vsub [ux; uy] (vscale un [n0; n1])) by (rewrite <- Ew, <- Eu; reflexivity). cbn [vsub vscale map] in Ex. injection Ex as Ex Ey.
    assert (Ulist : q_rho_u s = [st_rho s * ux; st_rho s * uy]) by (unfold q_rho_u; now rewrite Eu).
    assert (Wlist : q_rho_u w = [st_rho s * wx; st_rho s * wy]) by (unfold q_rho_u; rewrite Ew, R'; reflexivity).
    intros j J. unfold conservative_list. rewrite Ulist, Wlist, R', E'. four j J; compute_entries; cbn [vsub nth app].
    - ring.
    - rewrite Ex. field. lra.
    - rewrite Ey. field. lra.
    - replace (n0 * wx / (2 * c)) with ((wx * n0 + wy * n1) / (2 * c) - n1 * wy / (2 * c)) by (field; lra). rewrite Un. field. split; lra. }
  assert (Stab : forall i, (i < 4)%nat -> nth i (mvmul tau (vsub (conservative_list (s_gamma cfg) s) (conservative_list (s_gamma cfg) w))) 0 = st_rho s * un * c * (l 3%nat * entry P i 3 - l 0%nat * entry P i 0)).
  { intros i I. destruct St as (Rt & Ct & _). rewrite mvmul_total by lia. rewrite Ct.
    etransitivity; [apply total_ext; intros k K; rewrite Jump by exact K; reflexivity|].
    pose proof (Eig i 3%nat I ltac:(lia)) as E3. pose proof (Eig i 0%nat I ltac:(lia)) as E0. rewrite Un in E3, E0. fold l in E3, E0. rewrite <- E3, <- E0. cbn [total]. ring. }
  assert (P03 : entry P 0 3 = 1 / (2 * c ^ 2) /\ entry P 0 0 = 1 / (2 * c ^ 2) /\ entry P 3 3 = (c ^ 2 / (s_gamma cfg - 1) + inner [wx; wy] [wx; wy] / 2) / (2 * c ^ 2)
     /\ entry P 3 0 = (c ^ 2 / (s_gamma cfg - 1) + inner [wx; wy] [wx; wy] / 2) / (2 * c ^ 2)).
  { clear Jump Stab Eig. unfold conservative_from_characteristic, eos_P in EP. rewrite Er, Ec, Ef in EP. destruct Nn as [-> Nn]. cbn [equation] in EP. apply ok_inj in EP. subst P.
    compute_entries. split; [reflexivity|]. split; [reflexivity|].
    assert (Uy : n1 * wy = - (n0 * wx)) by lra. 
    split.
    - replace (n1 * wy / (2 * c)) with (- (n0 * wx) / (2 * c)) by (now rewrite Uy). field. split; lra.
    - replace (n1 * wy / (2 * c)) with (- (n0 * wx) / (2 * c)) by (now rewrite Uy). field. split; lra. }
  destruct P03 as (P03 & P00 & P33 & P30).
  split.
  - rewrite Efl by lia. rewrite T0, Stab by lia. rewrite P03, P00. field. lra.
  - rewrite Efl by lia. rewrite Stab by lia. rewrite Ew in T1. cbn [length Nat.add] in T1. rewrite T1, P33, P30. field. split; lra.
Qed.

(** Two dimensions: the same for the solvers of Roe and HLLEM. *)
Theorem c61_slip_waves : forall cfg s n n0 n1 f, 1 < s_gamma cfg -> valid s -> length (st_u s) = 2%nat -> s_dim cfg = 2%nat -> unit2 n n0 n1 ->
  s_riemann cfg <> Upwind ->
  get_convective_numerical_flux cfg (conservative_list (s_gamma cfg) s) (conservative_list (s_gamma cfg) (slip s n (s_gamma cfg))) n = Ok f ->
  nth 0 f 0 = 0 /\ nth 3 f 0 = 0.
Proof.
  intros cfg s n n0 n1 f G V Lu D2 N Nu H. destruct (st_u s) as [|ux [|uy [|uz u]]] eqn:Eu; try discriminate Lu.
  destruct (slip_waves cfg s n n0 n1 ux uy f G V Eu D2 N H) as [E0 E3].
  assert (Inn : inner n n = 1) by (destruct N as [-> N]; cbn [inner]; lra).
  assert (Ln : length n = length (st_u s)) by (destruct N as [-> _]; now rewrite Eu).
  destruct (c50_slip s n (s_gamma cfg) G V Ln Inn) as (V' & _). pose proof (q_c_pos _ _ G V') as C0.
  assert (L : dissipation (s_riemann cfg) 0 (q_c (s_gamma cfg) (slip s n (s_gamma cfg))) 3 = dissipation (s_riemann cfg) 0 (q_c (s_gamma cfg) (slip s n (s_gamma cfg))) 0).
  { set (c := q_c (s_gamma cfg) (slip s n (s_gamma cfg))) in *. destruct (s_riemann cfg); cbn [dissipation wave_speed]; try reflexivity; [contradiction|].
    unfold Rabs. destruct (Rcase_abs (0 + c)), (Rcase_abs (0 - c)); lra. }
  rewrite L in E0, E3. rewrite E0, E3. split; field; lra.
Qed.
Print Assumptions c61_slip_waves.

(** With the upwind solver a wall is not tight: half of the momentum that the flow has towards the wall passes as mass,
    and the energy that belongs to this mass. *)
Theorem c61_upwind_refuted : forall cfg s n n0 n1 f, 1 < s_gamma cfg -> valid s -> length (st_u s) = 2%nat -> s_dim cfg = 2%nat -> unit2 n n0 n1 ->
  s_riemann cfg = Upwind ->
  let w := slip s n (s_gamma cfg) in
  get_convective_numerical_flux cfg (conservative_list (s_gamma cfg) s) (conservative_list (s_gamma cfg) w) n = Ok f ->
  nth 0 f 0 = st_rho s * inner (st_u s) n / 2 /\
  nth 3 f 0 = st_rho s * inner (st_u s) n / 2 * (q_c (s_gamma cfg) w ^ 2 / (s_gamma cfg - 1) + inner (st_u w) (st_u w) / 2).
Proof.
  intros cfg s n n0 n1 f G V Lu D2 N Nu w H. destruct (st_u s) as [|ux [|uy [|uz u]]] eqn:Eu; try discriminate Lu.
  destruct (slip_waves cfg s n n0 n1 ux uy f G V Eu D2 N H) as [E0 E3]. fold w in E0, E3. rewrite Eu in E0, E3.
  assert (Inn : inner n n = 1) by (destruct N as [-> N]; cbn [inner]; lra).
  assert (Ln : length n = length (st_u s)) by (destruct N as [-> _]; now rewrite Eu).
  destruct (c50_slip s n (s_gamma cfg) G V Ln Inn) as (V' & _). pose proof (q_c_pos _ _ G V') as C0. fold w in C0.
  rewrite Nu in E0, E3. cbn [dissipation wave_speed] in E0, E3. rewrite !Rplus_0_l, (Rmax_left (q_c (s_gamma cfg) w)), Rmax_right in E0, E3 by lra.
  rewrite E0, E3. split; [field; lra|]. field. split; lra.
Qed.
Print Assumptions c61_upwind_refuted.

(** ** Closed boxes *)

Lemma slips_fluxes s m u y f : 1 < s_gamma s -> s_riemann s = LaxFriedrich \/ s_riemann s = HLL -> slips s m u y ->
  convection_Fn s m u y = Ok f -> nth 0 f 0 = 0 /\ nth (s_dim s + 1) f 0 = 0.
Proof.
  intros G Rs (Ln & N & LU & (st & V & Dim & EU) & (r & Er & Z)) H. unfold convection_Fn in H. rewrite EU in *.
  destruct (c50_inviscid_wall s st (normal m y) (uUhat u y) G V Dim Ln N LU) as (r' & Er' & _ & Eq). rewrite Er in Er'. apply ok_inj in Er'. subst r'.
  apply Eq in Z. rewrite Z in H. exact (c61_slip s st (normal m y) f G V Dim Ln N Rs H).
Qed.

(** An inviscid flow in a box whose walls are inviscid walls and symmetries: mass and energy never change, with any time
    steps. *)
Theorem c61_inviscid_box : forall s m r bs W (U : nat -> unknowns) (dt : nat -> R) N,
  1 < s_gamma s -> s_law s = Inviscid -> s_riemann s = LaxFriedrich \/ s_riemann s = HLL ->
  has_constants (s_dim s) m W -> (forall n x, length (uU (U n) x) = (s_dim s + 2)%nat) -> (forall n, dt n <> 0) ->
  on_domain_boundary m bs -> (forall n, solves s m r bs [] (IE (dt n) (uU (U n))) W (U (S n))) ->
  (forall n w y, In (w, y) (r_cbnd r) -> outer_facet m (facet m y) = true -> slips s m (U (S n)) y) ->
  content (r_time r) (uU (U N)) 0 = content (r_time r) (uU (U 0%nat)) 0 /\
  content (r_time r) (uU (U N)) (s_dim s + 1) = content (r_time r) (uU (U 0%nat)) (s_dim s + 1).
Proof.
  intros s m r bs W U dt N G Law Rs HW Hu Hdt Hb Hs Hw.
  assert (O : forall n, outflow s m r (U (S n)) (fun y => outer_facet m (facet m y)) 0 = 0 /\ outflow s m r (U (S n)) (fun y => outer_facet m (facet m y)) (s_dim s + 1) = 0).
  { intros n. destruct (c60_computed s m r bs [] _ W (U (S n)) HW (Hs n)) as [Cc _]. unfold outflow. rewrite Law.
    split; rewrite weighted_zero; try ring; intros w y I; apply in_at_points in I as [I O]; unfold component; destruct (Cc w y I) as [f Ef]; rewrite Ef;
    now destruct (slips_fluxes s m (U (S n)) y f G Rs (Hw n w y I O) Ef). }
  split; rewrite (c60_euler s m r bs [] W U dt _ N HW Hu Hdt Hb Hs) by lia; rewrite (total_ext _ (fun _ => 0)), total_zero; try ring; intros n _; destruct (O n) as [O1 O2];
  cbn [damped]; [rewrite O1|rewrite O2]; ring.
Qed.
Print Assumptions c61_inviscid_box.

(** A viscous flow in a box with isothermal walls: the mass never changes. *)
Theorem c61_isothermal_box : forall s m r bs W (U : nat -> unknowns) (dt : nat -> R) (T : nat -> R) N,
  1 < s_gamma s -> s_law s <> Inviscid -> s_riemann s = LaxFriedrich \/ s_riemann s = HLL ->
  has_constants (s_dim s) m W -> (forall n x, length (uU (U n) x) = (s_dim s + 2)%nat) -> (forall n, dt n <> 0) ->
  on_domain_boundary m bs -> (forall n, solves s m r bs [] (IE (dt n) (uU (U n))) W (U (S n))) ->
  (forall n w y, In (w, y) (r_cbnd r) -> outer_facet m (facet m y) = true -> sticks s m (U (S n)) (T y) y) ->
  content (r_time r) (uU (U N)) 0 = content (r_time r) (uU (U 0%nat)) 0.
Proof.
  intros s m r bs W U dt T N G Law Rs HW Hu Hdt Hb Hs Hw.
  rewrite (c60_euler s m r bs [] W U dt 0 N HW Hu Hdt Hb Hs) by lia. rewrite (total_ext _ (fun _ => 0)), total_zero; [ring|]. intros n _. cbn [damped].
  replace (outflow s m r (U (S n)) (fun y => outer_facet m (facet m y)) 0) with 0; [ring|]. symmetry.
  destruct (c60_computed s m r bs [] _ W (U (S n)) HW (Hs n)) as [Cc Cd]. specialize (Cd Law).
  assert (Z : forall y, sticks s m (U (S n)) (T y) y -> exists st, valid st /\ length (st_u st) = s_dim s /\ length (normal m y) = s_dim s /\ 0 < T y /\
    uU (U (S n)) y = conservative_list (s_gamma s) st /\ uUhat (U (S n)) y = conservative_list (s_gamma s) (isothermal st (s_dim s) (T y) (s_gamma s))).
  { intros y (HT & Ln & LU & (st & V & Dim & EU) & (q & Eq & Z)). exists st.
    destruct (c50_isothermal_wall s st (T y) (uUhat (U (S n)) y) G V Dim HT LU) as (_ & _ & q' & Eq' & _ & Iff). rewrite EU in Eq. rewrite Eq in Eq'. apply ok_inj in Eq'. subst q'.
    repeat match goal with |- _ /\ _ => split end; trivial. now apply Iff. }
  assert (O1 : weighted (at_points (fun y => outer_facet m (facet m y)) (r_cbnd r)) (component (convection_Fn s m (U (S n))) 0) = 0).
  { apply weighted_zero. intros w y I. apply in_at_points in I as [I O]. unfold component. destruct (Cc w y I) as [f Ef]. rewrite Ef.
    destruct (Z y (Hw n w y I O)) as (st & V & Dim & Ln & HT & EU & EUh). unfold convection_Fn in Ef. rewrite EU, EUh in Ef.
    exact (proj1 (c61_isothermal s st (T y) (normal m y) f G V Dim Ln HT Rs Ef)). }
  assert (O2 : weighted (at_points (fun y => outer_facet m (facet m y)) (r_dbnd r)) (component (diffusion_Gn s m (U (S n))) 0) = 0).
  { apply weighted_zero. intros w y I. apply in_at_points in I as [I O]. unfold component. destruct (Cd w y I) as [q Eq]. rewrite Eq. exact (diffusion_carries_no_mass _ _ _ _ _ _ Eq). }
  unfold outflow. rewrite O1, O2. destruct (s_law s); ring.
Qed.
Print Assumptions c61_isothermal_box.
