(** C50: the boundary conditions of the conservative formulation impose the states they promise. *)
From Coq Require Import Reals List Arith Lra Lia Bool.
From Verif Require Import Base M_Bla M_Flow M_Formulation S_Flow S_Chars S_Formulation L_Flow P_Bla P_Eos P_Chars P_Jacobian P_Split L_Formulation.
Import ListNotations.
Open Scope R_scope.

(** ** Outflow, walls *)

(** The trace that an outflow imposes keeps density and velocity of the flow and has the prescribed pressure. *)
Theorem c50_outflow : forall cfg s p Uhat, 1 < s_gamma cfg -> valid s -> length (st_u s) = s_dim cfg -> length Uhat = (s_dim cfg + 2)%nat ->
  exists r, outflow_residual cfg p (conservative_list (s_gamma cfg) s) Uhat = Ok r /\ length r = (s_dim cfg + 2)%nat /\
    (vanishes r <-> Uhat = conservative_list (s_gamma cfg) (mk_state (st_rho s) (st_u s) p)).
Proof.
  intros cfg s p Uhat G V Dim L. unfold outflow_residual, outflow_state. rewrite (fields_ok cfg s G V Dim). cbn [bind].
  assert (E : conservative_vector cfg (mk_flow (f_rho (full_fields cfg s)) None (f_rho_u (full_fields cfg s)) (Some p) None None None None None
    (f_rho_Ek (full_fields cfg s)) None None None None) = Ok (conservative_list (s_gamma cfg) (mk_state (st_rho s) (st_u s) p))).
  { unfold conservative_vector, full_fields. cbn. f_equal. unfold conservative_list, q_rho_u. cbn [st_rho st_u]. do 3 f_equal.
    unfold q_rho_E, q_E, q_Ei, q_rho_Ei, q_rho_Ek, q_Ek. cbn [st_rho st_u st_p]. destruct V. field. lra. }
  rewrite E. cbn [bind]. eexists. split; [reflexivity|].
  assert (L' : length Uhat = length (conservative_list (s_gamma cfg) (mk_state (st_rho s) (st_u s) p))) by (rewrite conservative_list_length; cbn [st_u]; lia).
  split; [rewrite vsub_length, <- L'; lia|]. apply vsub_vanishes. exact L'.
Qed.
Print Assumptions c50_outflow.

(** What an inviscid wall imposes: density, all of the energy and the tangential velocity are kept. *)
Theorem c50_slip : forall s n g, 1 < g -> valid s -> length n = length (st_u s) -> inner n n = 1 ->
  valid (slip s n g) /\ length (st_u (slip s n g)) = length (st_u s) /\ st_rho (slip s n g) = st_rho s /\
  inner (st_u (slip s n g)) n = 0 /\ (forall t, length t = length (st_u s) -> inner n t = 0 -> inner (st_u (slip s n g)) t = inner (st_u s) t) /\
  q_rho_E g (slip s n g) = q_rho_E g s.
Proof.
  intros s n g G (R0 & P0) L N. set (un := inner (st_u s) n).
  assert (Lv : length (vscale un n) = length (st_u s)) by (rewrite vscale_length; exact L).
  repeat match goal with |- _ /\ _ => split end.
  - split; [exact R0|]. cbn. fold un. assert (0 <= (g - 1) / 2 * st_rho s * un ^ 2).
    { apply Rmult_le_pos; [apply Rmult_le_pos; lra|]. apply pow2_ge_0. } cbn in H. lra.
  - unfold slip; cbn [st_u]. rewrite vsub_length. fold un. lia.
  - reflexivity.
  - unfold slip; cbn [st_u]. fold un. rewrite inner_vsub, inner_vscale, N by lia. fold un. ring.
  - intros t Lt T. unfold slip; cbn [st_u]. fold un. rewrite inner_vsub, inner_vscale, T by lia. ring.
  - unfold q_rho_E, q_E, q_Ei, q_rho_Ei, q_Ek, slip. cbn [st_rho st_u st_p]. fold un.
    rewrite inner_vsub by lia. rewrite (inner_comm (st_u s)), (inner_comm (vscale un n)).
    rewrite !inner_vsub by lia. rewrite !inner_vscale. rewrite !(inner_comm _ (vscale un n)), !inner_vscale, N.
    rewrite (inner_comm n (st_u s)). fold un. field. lra.
Qed.
Print Assumptions c50_slip.

Lemma vscale_map f x : vscale f x = map (fun a => f * a) x.
Proof. reflexivity. Qed.

(** An inviscid wall or a symmetry imposes this state. *)
Theorem c50_inviscid_wall : forall cfg s n Uhat, 1 < s_gamma cfg -> valid s -> length (st_u s) = s_dim cfg -> length n = s_dim cfg -> inner n n = 1 ->
  length Uhat = (s_dim cfg + 2)%nat ->
  exists r, inviscid_wall_residual cfg (conservative_list (s_gamma cfg) s) Uhat n = Ok r /\ length r = (s_dim cfg + 2)%nat /\
    (vanishes r <-> Uhat = conservative_list (s_gamma cfg) (slip s n (s_gamma cfg))).
Proof.
  intros cfg s n Uhat G V Dim Ln N L. unfold inviscid_wall_residual, inviscid_wall_state. rewrite (fields_ok cfg s G V Dim). cbn [bind].
  pose proof (c50_slip s n (s_gamma cfg) G V ltac:(lia) N) as (_ & Ls & _ & _ & _ & Es).
  assert (E : st_rho s :: vsub (q_rho_u s) (vscale (inner (q_rho_u s) n) n) ++ [q_rho_E (s_gamma cfg) s] = conservative_list (s_gamma cfg) (slip s n (s_gamma cfg))).
  { unfold conservative_list. rewrite Es. change (st_rho (slip s n (s_gamma cfg))) with (st_rho s). do 2 f_equal.
    unfold q_rho_u, slip. cbn [st_rho st_u]. rewrite inner_map. set (un := inner (st_u s) n). assert (Lv : length n = length (st_u s)) by lia. clearbody un. clear - Lv.
    revert n Lv. induction (st_u s) as [|a u IH]; intros [|b n] Lv; try discriminate Lv; [reflexivity|]. cbn in Lv |- *. f_equal; [ring|]. apply IH. lia. }
  unfold density, momentum, energy, full_fields. cbn [eos_density f_rho f_rho_u f_rho_E equation bind]. rewrite E.
  eexists. split; [reflexivity|].
  assert (L' : length Uhat = length (conservative_list (s_gamma cfg) (slip s n (s_gamma cfg)))) by (rewrite conservative_list_length; lia).
  split; [rewrite vsub_length, <- L'; lia|]. apply vsub_vanishes. exact L'.
Qed.
Print Assumptions c50_inviscid_wall.

Lemma inner_zero d x : inner (repeat 0 d) x = 0.
Proof. revert x. induction d as [|d IH]; intros [|a x]; cbn; try reflexivity. rewrite IH. ring. Qed.

(** An isothermal wall imposes the prescribed temperature. *)
Theorem c50_isothermal_wall : forall cfg s T Uhat, 1 < s_gamma cfg -> valid s -> length (st_u s) = s_dim cfg -> 0 < T ->
  length Uhat = (s_dim cfg + 2)%nat ->
  let w := isothermal s (s_dim cfg) T (s_gamma cfg) in
  valid w /\ q_T (s_gamma cfg) w = T /\
  exists r, isothermal_wall_residual cfg T (conservative_list (s_gamma cfg) s) Uhat = Ok r /\ length r = (s_dim cfg + 2)%nat /\
    (vanishes r <-> Uhat = conservative_list (s_gamma cfg) w).
Proof.
  intros cfg s T Uhat G V Dim T0 L w. pose proof V as [R0 P0]. split; [|split].
  - split; [exact R0|]. cbn. assert (0 < (s_gamma cfg - 1) / s_gamma cfg) by (apply Rdiv_lt_0_compat; lra). apply Rmult_lt_0_compat; [apply Rmult_lt_0_compat; lra|lra].
  - unfold q_T, w. cbn [isothermal st_rho st_p]. field. lra.
  - unfold isothermal_wall_residual, isothermal_wall_state. rewrite (fields_ok cfg s G V Dim). cbn [bind].
    assert (E : (let U_bc := mk_flow (f_rho (full_fields cfg s)) None (Some (repeat 0 (s_dim cfg))) None (Some T) None None None None (Some 0) None None None None in
      let* rho := density cfg U_bc in let* m := momentum U_bc in let* e := inner_energy cfg U_bc in Ok (rho :: m ++ [e])) = Ok (conservative_list (s_gamma cfg) w)).
    { cbn. f_equal. unfold conservative_list, q_rho_u, w. cbn [isothermal st_rho st_u]. f_equal. f_equal.
      - rewrite <- (Rmult_0_r (st_rho s)) at 1. clear. induction (s_dim cfg) as [|d IH]; [reflexivity|]. cbn. rewrite <- IH, !Rmult_0_r. reflexivity.
      - f_equal. unfold q_rho_E, q_E, q_Ei, q_rho_Ei, q_Ek. cbn [isothermal st_rho st_u st_p]. rewrite inner_zero. field. lra. }
    cbv zeta in E. rewrite E. cbn [bind]. eexists. split; [reflexivity|].
    assert (L' : length Uhat = length (conservative_list (s_gamma cfg) w)) by (rewrite conservative_list_length; cbn; rewrite repeat_length; lia).
    split; [rewrite vsub_length, <- L'; lia|]. apply vsub_vanishes. exact L'.
Qed.
Print Assumptions c50_isothermal_wall.

(** ** The adiabatic wall cannot be set up *)

Lemma diagonal_length l : length (entries (diagonal l)) = (length l * length l)%nat.
Proof.
  unfold diagonal. cbn [entries]. set (f := fun mat i => set_entry mat ((length l + 1) * i) (nth i l 0)).
  assert (E : forall is m, length (fold_left f is m) = length m).
  { induction is as [|i is IH]; intros m; [reflexivity|]. cbn [fold_left]. rewrite IH. apply set_entry_length. }
  rewrite E, repeat_length. reflexivity.
Qed.

Lemma stabilisation_length cfg U tau : get_diffusive_stabilisation_matrix cfg U = Ok tau -> length (entries tau) = ((s_dim cfg + 2) * (s_dim cfg + 2))%nat.
Proof.
  unfold get_diffusive_stabilisation_matrix. intros H. apply bind_ok in H as (re & _ & H). apply bind_ok in H as (pr & _ & H). apply bind_ok in H as (mu & _ & H).
  apply ok_inj in H. subst tau. cbn [mdiv scale entries]. rewrite vdiv_length, map_length, diagonal_length. cbn [length]. rewrite app_length, repeat_length. cbn [length].
  replace (S (s_dim cfg + 1)) with (s_dim cfg + 2)%nat by lia. reflexivity.
Qed.

Lemma fields_values cfg U : exists V, get_conservative_fields cfg U = Ok V /\ f_rho V = Some (nth 0 U 0) /\
  f_rho_u V = Some (firstn (s_dim cfg) (skipn 1 U)) /\ f_rho_E V = Some (nth (s_dim cfg + 1) U 0).
Proof. eexists. repeat split; reflexivity. Qed.

(** Whatever the state of the flow, the adiabatic wall raises: NotImplementedError without the strain and heat unknowns,
    and otherwise because its boundary state has too many components. *)
Theorem c50_adiabatic_wall : forall cfg mm U Uhat Q n, length Uhat = (s_dim cfg + 2)%nat ->
  (mm <> MStrainHeat -> adiabatic_wall_residual cfg mm U Uhat Q n = Err NotImplementedError) /\
  (mm = MStrainHeat -> s_dim cfg = 2%nat -> length Q = 5%nat -> s_law cfg = Inviscid -> adiabatic_wall_residual cfg mm U Uhat Q n = Err ValueError) /\
  (mm = MStrainHeat -> s_dim cfg = 2%nat -> length Q = 5%nat -> s_law cfg = Constant -> adiabatic_wall_residual cfg mm U Uhat Q n = Err NgException) /\
  (exists e, adiabatic_wall_residual cfg mm U Uhat Q n = Err e).
Proof.
  intros cfg mm U Uhat Q n L.
  assert (NG : forall rhohat rho f tau, length (entries tau) = ((s_dim cfg + 2) * (s_dim cfg + 2))%nat ->
    cf_sub Uhat ((rhohat - rho) :: firstn (s_dim cfg) (skipn 1 Uhat) ++ entries (scale f tau)) = Err NgException).
  { intros rhohat rho f tau Lt. unfold cf_sub. cbn [length]. rewrite app_length, firstn_length, skipn_length. cbn [scale entries]. rewrite map_length, Lt, L.
    destruct (Nat.eqb_spec (s_dim cfg + 2) (S (Nat.min (s_dim cfg) (s_dim cfg + 2 - 1) + (s_dim cfg + 2) * (s_dim cfg + 2)))); [nia|reflexivity]. }
  destruct (fields_values cfg U) as (V & EV & Vr & Vm & VE). destruct (fields_values cfg Uhat) as (W & EW & Wr & Wm & WE).
  unfold adiabatic_wall_residual. rewrite EV, EW. cbn [bind]. rewrite Vr, VE, Wr, Wm, WE. unfold strain_heat_fields.
  repeat match goal with |- _ /\ _ => split end.
  - intros M. destruct mm; try reflexivity. contradiction.
  - intros -> D2 LQ Law. rewrite D2. destruct Q as [|a [|b [|c [|d [|e [|f Q]]]]]]; try discriminate LQ.
    cbn [Nat.mul Nat.add Nat.sub firstn skipn symmetric_matrix bind].
    unfold get_diffusive_stabilisation_matrix, reference_reynolds_number, reynolds_number. rewrite Law. reflexivity.
  - intros -> D2 LQ Law. rewrite D2. destruct Q as [|a [|b [|c [|d [|e [|f Q]]]]]]; try discriminate LQ.
    cbn [Nat.mul Nat.add Nat.sub firstn skipn symmetric_matrix bind].
    assert (ES : exists tau, get_diffusive_stabilisation_matrix cfg V = Ok tau).
    { unfold get_diffusive_stabilisation_matrix, reference_reynolds_number, reynolds_number, prandtl_number, viscosity, law_viscosity. rewrite Law. eexists. reflexivity. }
    destruct ES as [tau Et]. rewrite Et. cbn [bind]. unfold temperature_gradient, eos_temperature_gradient. cbn [g_T equation bind].
    rewrite D2 in NG. apply NG. rewrite (stabilisation_length _ _ _ Et), D2. reflexivity.
  - destruct mm; try (eexists; reflexivity).
    match goal with |- context [symmetric_matrix ?a ?b] => destruct (symmetric_matrix a b) as [eps|e] end; [|eexists; reflexivity]. cbn [bind].
    destruct (get_diffusive_stabilisation_matrix cfg V) as [tau|e] eqn:Et; [|eexists; reflexivity].
    cbn [bind]. unfold temperature_gradient, eos_temperature_gradient. cbn [g_T equation bind].
    exists NgException. apply NG. apply (stabilisation_length _ _ _ Et).
Qed.
Print Assumptions c50_adiabatic_wall.

(** ** Far field *)

(** A uniform flow carries the amplitudes p, (g - 1) p, 0, p. *)
Definition uniform_amplitude (g p : R) (k : nat) : R := match k with 0%nat | 3%nat => p | 1%nat => (g - 1) * p | _ => 0 end.

Section Farfield.
Variables (cfg : settings) (s : state) (ux uy n0 n1 : R) (n : list R).
Hypothesis G : 1 < s_gamma cfg.
Hypothesis Va : valid s.
Hypothesis Eu : st_u s = [ux; uy].
Hypothesis D2 : s_dim cfg = 2%nat.
Hypothesis N : unit2 n n0 n1.
Let g := s_gamma cfg.
Let c := q_c g s.
Let un := ux * n0 + uy * n1.
Let speed k := wave_speed un c k.
Let V := full_fields cfg s.

Lemma farfield_fields : get_conservative_fields cfg (conservative_list g s) = Ok V.
Proof. apply fields_ok; trivial. rewrite Eu, D2. reflexivity. Qed.

Lemma farfield_matrices : exists P Pi, inverse 4 P Pi /\ characteristic_from_conservative cfg V n = Ok Pi /\
  (forall m, transform_characteristic_to_conservative cfg m V n = Ok (mmul (mmul P m) Pi)) /\
  forall k, (k < 4)%nat -> amplitude Pi (conservative_list g s) k = uniform_amplitude g (st_p s) k.
Proof.
  pose proof (q_c_pos g s G Va) as C0. fold c in C0. pose proof Va as [R0 P0].
  assert (Er : f_rho V = Some (st_rho s)) by reflexivity. assert (Eu' : f_u V = Some [ux; uy]) by (cbn; rewrite Eu; reflexivity). assert (Ec : f_c V = Some c) by reflexivity.
  destruct (c43_conservative_characteristic cfg V (st_rho s) ux uy c n n0 n1 Er Eu' Ec N ltac:(lra) ltac:(lra) ltac:(lra)) as (P & Pi & M & Mi & L & Li & EP & EPi & _ & _ & _ & _ & Inv & _).
  exists P, Pi. split; [exact Inv|]. split; [exact EPi|]. split.
  - intros m. unfold transform_characteristic_to_conservative. rewrite EP, EPi. reflexivity.
  - destruct N as [En _]. rewrite En in EPi. unfold characteristic_from_conservative, eos_Pinv in EPi. rewrite Er, Eu', Ec in EPi. cbn [equation] in EPi. apply ok_inj in EPi.
    fold g in EPi. pose proof (q_c_square g s G Va) as C2. fold c in C2. clear EP Inv. subst Pi.
    assert (E : c ^ 2 * st_rho s = g * st_p s) by (rewrite C2; field; lra).
    assert (EE : q_rho_E g s = st_p s / (g - 1) + st_rho s * (ux * ux + uy * uy) / 2).
    { unfold q_rho_E, q_E, q_Ei, q_rho_Ei, q_Ek. rewrite Eu. cbn [inner]. fold g in G. field. lra. }
    assert (EU : conservative_list g s = [st_rho s; st_rho s * ux; st_rho s * uy; st_p s / (g - 1) + st_rho s * (ux * ux + uy * uy) / 2]).
    { unfold conservative_list, q_rho_u. rewrite EE, Eu. reflexivity. }
    rewrite EU. fold g in G. intros k K. unfold amplitude, entry, mat4. cbn [cols entries inner].
    four k K; cbn [uniform_amplitude total Nat.mul Nat.add nth inner].
    + field. lra.
    + transitivity (c ^ 2 * st_rho s - st_p s); [field; lra|]. rewrite E. ring.
    + field. lra.
    + field. lra.
Qed.
Lemma farfield_residuals fields w U : conservative_vector cfg fields = Ok w -> length w = 4%nat -> length U = 4%nat ->
  exists P Pi r rJ, inverse 4 P Pi /\ characteristic_from_conservative cfg V n = Ok Pi /\
    (forall k, (k < 4)%nat -> amplitude Pi (conservative_list g s) k = uniform_amplitude g (st_p s) k) /\
    farfield_residual cfg fields true U (conservative_list g s) n = Ok r /\
    farfield_residual cfg fields false U (conservative_list g s) n = Ok rJ /\
    length r = 4%nat /\ length rJ = 4%nat /\
    (forall k, (k < 4)%nat -> amplitude Pi r k =
       amplitude Pi (conservative_list g s) k - selected Outgoing (speed k) * amplitude Pi U k - selected Incoming (speed k) * amplitude Pi w k) /\
    (forall k, (k < 4)%nat -> amplitude Pi rJ k =
       part Outgoing (speed k) * (amplitude Pi (conservative_list g s) k - amplitude Pi U k) -
       part Incoming (speed k) * (amplitude Pi (conservative_list g s) k - amplitude Pi w k)).
Proof.
  intros Ew Lw LU. destruct farfield_matrices as (P & Pi & Inv & EPi & Tr & Am). exists P, Pi.
  assert (Lh : length (conservative_list g s) = 4%nat) by (rewrite conservative_list_length, Eu; reflexivity).
  assert (Eu' : f_u V = Some [ux; uy]) by (cbn; rewrite Eu; reflexivity). assert (Ec : f_c V = Some c) by reflexivity.
  assert (SW : forall f, rows (mmul (mmul P (diagonal (map f waves))) Pi) = 4%nat).
  { intros f. destruct Inv as ((Rp & _) & _). exact Rp. }
  unfold farfield_residual. rewrite farfield_fields, Ew. cbn [bind].
  unfold get_conservative_convective_identity, get_conservative_convective_jacobian.
  rewrite !(identity_ok V ux uy c n0 n1 n Eu' Ec N) by tauto. rewrite !(velocities V ux uy c n0 n1 n Eu' Ec N) by discriminate. cbn [bind]. rewrite !Tr. cbn [bind].
  fold un. fold waves. do 2 eexists. split; [exact Inv|]. split; [exact EPi|]. split; [exact Am|]. split; [reflexivity|]. split; [reflexivity|].
  split; [rewrite !vsub_length, !mvmul_length, !SW, Lh; reflexivity|]. split; [rewrite !vsub_length, !mvmul_length, !SW; reflexivity|].
  split; intros k K.
  - rewrite !amplitude_vsub by (rewrite ?vsub_length, ?mvmul_length, ?SW, ?Lh; reflexivity).
    change (map (fun k => selected Outgoing (wave_speed un c k)) waves) with (map (fun k => selected Outgoing (speed k)) waves).
    change (map (fun k => selected Incoming (wave_speed un c k)) waves) with (map (fun k => selected Incoming (speed k)) waves).
    rewrite !(amplitude_wave P Pi _ _ k Inv K). reflexivity.
  - rewrite amplitude_vsub by (rewrite ?vsub_length, ?mvmul_length, ?SW, ?Lh; reflexivity).
    change (map (fun k => part Outgoing (wave_speed un c k)) waves) with (map (fun k => part Outgoing (speed k)) waves).
    change (map (fun k => part Incoming (wave_speed un c k)) waves) with (map (fun k => part Incoming (speed k)) waves).
    rewrite !(amplitude_wave P Pi _ _ k Inv K). rewrite !amplitude_vsub by (rewrite ?Lh, ?Lw, ?LU; reflexivity). reflexivity.
Qed.
End Farfield.

Lemma same_amplitudes P Q a b : inverse 4 P Q -> length a = 4%nat -> length b = 4%nat -> (forall k, (k < 4)%nat -> amplitude Q a k = amplitude Q b k) -> a = b.
Proof.
  intros Inv La Lb E. apply vsub_vanishes; [lia|]. apply (amplitudes_vanish P Q); [exact Inv|rewrite vsub_length; lia|].
  intros k K. rewrite amplitude_vsub by lia. rewrite (E k K). ring.
Qed.

(** The trace that the far field imposes has the amplitudes of the flow in all waves that leave the domain and those of
    the far field in all waves that enter it.  With the splitting by the Jacobians nothing is imposed on waves that
    stand still; with the splitting by the identities their amplitude must vanish. *)
Theorem c50_farfield : forall cfg s ux uy n n0 n1 fields w U, 1 < s_gamma cfg -> valid s -> st_u s = [ux; uy] -> s_dim cfg = 2%nat -> unit2 n n0 n1 ->
  conservative_vector cfg fields = Ok w -> length w = 4%nat -> length U = 4%nat ->
  let Uhat := conservative_list (s_gamma cfg) s in
  let speed := wave_speed (ux * n0 + uy * n1) (q_c (s_gamma cfg) s) in
  exists P Pi r rJ, inverse 4 P Pi /\ characteristic_from_conservative cfg (full_fields cfg s) n = Ok Pi /\
    farfield_residual cfg fields true U Uhat n = Ok r /\ farfield_residual cfg fields false U Uhat n = Ok rJ /\
    (vanishes r <-> forall k, (k < 4)%nat -> (0 < speed k -> amplitude Pi Uhat k = amplitude Pi U k) /\
       (speed k < 0 -> amplitude Pi Uhat k = amplitude Pi w k) /\ (speed k = 0 -> amplitude Pi Uhat k = 0)) /\
    (vanishes rJ <-> forall k, (k < 4)%nat -> (0 < speed k -> amplitude Pi Uhat k = amplitude Pi U k) /\
       (speed k < 0 -> amplitude Pi Uhat k = amplitude Pi w k)).
Proof.
  intros cfg s ux uy n n0 n1 fields w U G Va Eu D2 N Ew Lw LU Uhat speed.
  destruct (farfield_residuals cfg s ux uy n0 n1 n G Va Eu D2 N fields w U Ew Lw LU) as (P & Pi & r & rJ & Inv & EPi & Am & Hr & HJ & Lr & LJ & Ar & AJ).
  exists P, Pi, r, rJ. do 4 (split; [assumption|]). split.
  - rewrite <- (amplitudes_vanish P Pi r Inv Lr). split.
    + intros H k K. pose proof (Ar k K) as E. rewrite (H k K) in E. fold Uhat in E. fold (speed k) in E. unfold selected in E.
      repeat split; intros S; repeat match goal with H : context [Rlt_dec ?a ?b] |- _ => destruct (Rlt_dec a b) end; lra.
    + intros H k K. rewrite (Ar k K). fold Uhat. fold (speed k). destruct (H k K) as (A & B & C). unfold selected.
      destruct (Rtotal_order (speed k) 0) as [T|[T|T]]; [rewrite (B T)|rewrite (C T)|rewrite (A T)];
        repeat match goal with |- context [Rlt_dec ?a ?b] => destruct (Rlt_dec a b) end; lra.
  - rewrite <- (amplitudes_vanish P Pi rJ Inv LJ). split.
    + intros H k K. pose proof (AJ k K) as E. rewrite (H k K) in E. fold Uhat in E. fold (speed k) in E. cbn [part] in E. unfold Rmin, Rmax in E.
      split; intros S; destruct (Rle_dec (speed k) 0); try lra.
      * apply Rminus_diag_uniq. apply (Rmult_eq_reg_l (speed k)); lra.
      * apply Rminus_diag_uniq. apply (Rmult_eq_reg_l (speed k)); lra.
    + intros H k K. rewrite (AJ k K). fold Uhat. fold (speed k). destruct (H k K) as (A & B). cbn [part]. unfold Rmin, Rmax.
      destruct (Rtotal_order (speed k) 0) as [T|[T|T]]; [rewrite (B T)|rewrite T|rewrite (A T)]; destruct (Rle_dec _ 0); lra.
Qed.
Print Assumptions c50_farfield.

(** Supersonic inflow imposes the far field, supersonic outflow the state of the flow. *)
Theorem c50_farfield_supersonic : forall cfg s ux uy n n0 n1 fields w U, 1 < s_gamma cfg -> valid s -> st_u s = [ux; uy] -> s_dim cfg = 2%nat -> unit2 n n0 n1 ->
  conservative_vector cfg fields = Ok w -> length w = 4%nat -> length U = 4%nat ->
  let Uhat := conservative_list (s_gamma cfg) s in
  let un := ux * n0 + uy * n1 in
  forall identity r, farfield_residual cfg fields identity U Uhat n = Ok r ->
    (un + q_c (s_gamma cfg) s < 0 -> (vanishes r <-> Uhat = w)) /\ (0 < un - q_c (s_gamma cfg) s -> (vanishes r <-> Uhat = U)).
Proof.
  intros cfg s ux uy n n0 n1 fields w U G Va Eu D2 N Ew Lw LU Uhat un identity r Hr.
  destruct (c50_farfield cfg s ux uy n n0 n1 fields w U G Va Eu D2 N Ew Lw LU) as (P & Pi & r0 & rJ & Inv & _ & E0 & EJ & H0 & HJ). fold Uhat in E0, EJ, H0, HJ. fold un in H0, HJ.
  pose proof (q_c_pos _ _ G Va) as C0. set (c := q_c (s_gamma cfg) s) in *.
  assert (Lh : length Uhat = 4%nat) by (unfold Uhat; rewrite conservative_list_length, Eu; reflexivity).
  assert (Neg : un + c < 0 -> forall k, (k < 4)%nat -> wave_speed un c k < 0) by (intros S k K; four k K; cbn [wave_speed]; lra).
  assert (Pos : 0 < un - c -> forall k, (k < 4)%nat -> 0 < wave_speed un c k) by (intros S k K; four k K; cbn [wave_speed]; lra).
  split; intros S.
  - assert (Go : vanishes r <-> forall k, (k < 4)%nat -> amplitude Pi Uhat k = amplitude Pi w k).
    { destruct identity; [rewrite E0 in Hr|rewrite EJ in Hr]; apply ok_inj in Hr; subst r; [rewrite H0|rewrite HJ]; split; intros H k K; pose proof (Neg S k K) as T.
      - exact (proj1 (proj2 (H k K)) T).
      - repeat split; intros X; try (exfalso; lra). exact (H k K).
      - exact (proj2 (H k K) T).
      - split; intros X; try (exfalso; lra). exact (H k K). }
    rewrite Go. split; [intros H; exact (same_amplitudes P Pi Uhat w Inv Lh Lw H)|intros -> k K; reflexivity].
  - assert (Go : vanishes r <-> forall k, (k < 4)%nat -> amplitude Pi Uhat k = amplitude Pi U k).
    { destruct identity; [rewrite E0 in Hr|rewrite EJ in Hr]; apply ok_inj in Hr; subst r; [rewrite H0|rewrite HJ]; split; intros H k K; pose proof (Pos S k K) as T.
      - exact (proj1 (H k K) T).
      - repeat split; intros X; try (exfalso; lra). exact (H k K).
      - exact (proj1 (H k K) T).
      - split; intros X; try (exfalso; lra). exact (H k K). }
    rewrite Go. split; [intros H; exact (same_amplitudes P Pi Uhat U Inv Lh LU H)|intros -> k K; reflexivity].
Qed.
Print Assumptions c50_farfield_supersonic.

(** A uniform flow equal to the far field satisfies the condition with the Jacobians always, and the one with the
    identities exactly if no entropy or acoustic wave stands still. *)
Theorem c50_farfield_uniform : forall cfg s ux uy n n0 n1 fields, 1 < s_gamma cfg -> valid s -> st_u s = [ux; uy] -> s_dim cfg = 2%nat -> unit2 n n0 n1 ->
  conservative_vector cfg fields = Ok (conservative_list (s_gamma cfg) s) ->
  let U := conservative_list (s_gamma cfg) s in
  let un := ux * n0 + uy * n1 in
  exists r rJ, farfield_residual cfg fields true U U n = Ok r /\ farfield_residual cfg fields false U U n = Ok rJ /\ vanishes rJ /\
    (vanishes r <-> forall k, (k < 4)%nat -> wave_speed un (q_c (s_gamma cfg) s) k <> 0).
Proof.
  intros cfg s ux uy n n0 n1 fields G Va Eu D2 N Ew U un.
  assert (Lh : length U = 4%nat) by (unfold U; rewrite conservative_list_length, Eu; reflexivity).
  destruct (farfield_matrices cfg s ux uy n0 n1 n G Va Eu N) as (P' & Pi' & _ & EPi' & _ & Am).
  destruct (c50_farfield cfg s ux uy n n0 n1 fields U U G Va Eu D2 N Ew Lh Lh) as (P & Pi & r & rJ & Inv & EPi & E0 & EJ & H0 & HJ).
  rewrite EPi in EPi'. apply ok_inj in EPi'. subst Pi'. fold U in E0, EJ, H0, HJ, Am. fold un in H0, HJ.
  exists r, rJ. do 2 (split; [assumption|]). split; [apply HJ; intros k K; split; reflexivity|]. rewrite H0. destruct Va as [R0 P0]. split.
  - intros H k K Z. pose proof (proj2 (proj2 (H k K)) Z) as A. rewrite (Am k K) in A. four k K; cbn [uniform_amplitude wave_speed] in A, Z; try lra.
    + assert (0 < (s_gamma cfg - 1) * st_p s) by (apply Rmult_lt_0_compat; lra). lra.
    + pose proof (proj2 (proj2 (H 1%nat ltac:(lia)))) as B. cbn [wave_speed] in B. specialize (B Z). rewrite (Am 1%nat ltac:(lia)) in B. cbn [uniform_amplitude] in B.
      assert (0 < (s_gamma cfg - 1) * st_p s) by (apply Rmult_lt_0_compat; lra). lra.
  - intros H k K. repeat split; try reflexivity. intros Z. contradiction (H k K Z).
Qed.
Print Assumptions c50_farfield_uniform.

(** So a uniform flow along a boundary does not satisfy the default form of the condition (identities). *)
Theorem c50_farfield_refuted : forall cfg s ux uy n n0 n1 fields, 1 < s_gamma cfg -> valid s -> st_u s = [ux; uy] -> s_dim cfg = 2%nat -> unit2 n n0 n1 ->
  conservative_vector cfg fields = Ok (conservative_list (s_gamma cfg) s) -> ux * n0 + uy * n1 = 0 ->
  exists r, farfield_residual cfg fields true (conservative_list (s_gamma cfg) s) (conservative_list (s_gamma cfg) s) n = Ok r /\ ~ vanishes r.
Proof.
  intros cfg s ux uy n n0 n1 fields G Va Eu D2 N Ew Z.
  destruct (c50_farfield_uniform cfg s ux uy n n0 n1 fields G Va Eu D2 N Ew) as (r & rJ & E & _ & _ & H). exists r. split; [exact E|]. rewrite H.
  intros A. apply (A 1%nat ltac:(lia)). exact Z.
Qed.
Print Assumptions c50_farfield_refuted.

(** In one or three dimensions the far field raises NotImplementedError. *)
Theorem c50_farfield_dimension : forall cfg s fields w identity U n, 1 < s_gamma cfg -> valid s -> length (st_u s) = s_dim cfg -> length n = s_dim cfg ->
  s_dim cfg <> 2%nat -> conservative_vector cfg fields = Ok w ->
  farfield_residual cfg fields identity U (conservative_list (s_gamma cfg) s) n = Err NotImplementedError.
Proof.
  intros cfg s fields w identity U n G Va Dim Ln D2 Ew. unfold farfield_residual. rewrite (fields_ok cfg s G Va Dim), Ew. cbn [bind].
  assert (Tr : forall m, transform_characteristic_to_conservative cfg m (full_fields cfg s) n = Err NotImplementedError).
  { intros m. unfold transform_characteristic_to_conservative, conservative_from_characteristic, eos_P, full_fields. cbn [f_rho f_c f_u].
    rewrite <- Ln in D2. destruct n as [|a [|b [|d n]]]; cbn in D2; try lia; reflexivity. }
  assert (Vel : forall t, t <> OtherSplit -> exists l, characteristic_velocities (full_fields cfg s) n t = Ok l).
  { intros t T. unfold characteristic_velocities, eos_characteristic_velocities, full_fields. cbn [f_u f_c]. rewrite !split_part by exact T. eexists. reflexivity. }
  unfold get_conservative_convective_identity, get_conservative_convective_jacobian, get_characteristic_identity.
  destruct (Vel Incoming ltac:(discriminate)) as [l El]. rewrite El. cbn [bind]. rewrite !Tr. destruct identity; reflexivity.
Qed.
Print Assumptions c50_farfield_dimension.

(** The wave state with sound speed 2 moves along (3/5, 4/5) with velocity 5: supersonic outflow; along (4/5, -3/5) it
    does not move and its far field is refuted; the wall removes the normal velocity 5 and raises the pressure to 11. *)
Example c50_example :
  let W := conservative_list (7 / 5) wave_state in
  let n := [3 / 5; 4 / 5] in
  let t := [4 / 5; - (3 / 5)] in
  let far := mk_flow (Some (7 / 5)) (Some [3; 4]) None (Some 4) None None None None None None None None None None in
  conservative_vector air far = Ok W /\
  (exists r, farfield_residual air far true W W t = Ok r /\ ~ vanishes r) /\
  (exists r, farfield_residual air far true W W n = Ok r /\ vanishes r) /\
  slip wave_state n (7 / 5) = mk_state (7 / 5) [0; 0] 11 /\
  (exists r, inviscid_wall_residual air W (conservative_list (7 / 5) (mk_state (7 / 5) [0; 0] 11)) n = Ok r /\ vanishes r) /\
  (exists r, outflow_residual air 3 W W = Ok r /\ ~ vanishes r) /\
  isothermal wave_state 2 10 (7 / 5) = mk_state (7 / 5) [0; 0] 4.
Proof.
  intros W n t far.
  assert (Va : valid wave_state) by (split; cbn; lra). assert (G : 1 < s_gamma air) by (cbn; lra).
  assert (Un : unit2 n (3 / 5) (4 / 5)) by (split; [reflexivity|lra]). assert (Ut : unit2 t (4 / 5) (- (3 / 5))) by (split; [reflexivity|lra]).
  assert (Ew : conservative_vector air far = Ok W).
  { unfold conservative_vector, far. cbn. f_equal. unfold W, conservative_list, q_rho_u, wave_state. cbn. do 4 f_equal.
    unfold q_rho_E, q_E, q_Ei, q_rho_Ei, q_Ek. cbn. field. }
  assert (C : q_c (7 / 5) wave_state = 2).
  { unfold q_c, wave_state. cbn. replace (7 / 5 * 4 / (7 / 5)) with (2 * 2) by field. apply sqrt_square. lra. }
  assert (Es : slip wave_state n (7 / 5) = mk_state (7 / 5) [0; 0] 11).
  { unfold slip, wave_state, n. cbn. f_equal; [f_equal; [field|f_equal; field]|field]. }
  split; [exact Ew|]. split; [|split; [|split; [|split; [|split]]]].
  - apply (c50_farfield_refuted air wave_state 3 4 t (4 / 5) (- (3 / 5)) far G Va eq_refl eq_refl Ut Ew). lra.
  - destruct (c50_farfield_uniform air wave_state 3 4 n (3 / 5) (4 / 5) far G Va eq_refl eq_refl Un Ew) as (r & rJ & E & _ & _ & H).
    exists r. split; [exact E|]. apply H. intros k K. change (s_gamma air) with (7 / 5). rewrite C. four k K; cbn; lra.
  - exact Es.
  - destruct (c50_inviscid_wall air wave_state n (conservative_list (7 / 5) (mk_state (7 / 5) [0; 0] 11)) G Va eq_refl eq_refl ltac:(cbn; lra) eq_refl) as (r & E & _ & H).
    exists r. split; [exact E|]. apply H. change (s_gamma air) with (7 / 5). rewrite Es. reflexivity.
  - destruct (c50_outflow air wave_state 3 W G Va eq_refl eq_refl) as (r & E & _ & H). exists r. split; [exact E|]. rewrite H. unfold W, conservative_list.
    change (s_gamma air) with (7 / 5). intros X. injection X as X. unfold q_rho_E, q_E, q_Ei, q_rho_Ei, q_Ek in X. cbn in X.
    assert (A : 7 / 5 * (4 / (7 / 5 - 1) / (7 / 5) + (3 * 3 + (4 * 4 + 0)) / 2) = 55 / 2) by (field; lra).
    assert (B : 7 / 5 * (3 / (7 / 5 - 1) / (7 / 5) + (3 * 3 + (4 * 4 + 0)) / 2) = 25) by (field; lra). lra.
  - unfold isothermal, wave_state. cbn. f_equal. field.
Qed.
