(** C83: the viscous terms of the characteristic boundary conditions in the reference values of another scaling. *)
From Coq Require Import Reals String List Arith Bool Lia Lra.
From Coquelicot Require Import Coquelicot.
From Verif Require Import Base M_Bla M_Flow M_Formulation M_Weak M_Mixed M_Viscous S_Flow S_Chars S_Formulation S_Scaling S_Stress S_Weak S_Mixed S_Viscous S_Units L_Flow L_Formulation L_Weak P_Eos P_Chars P_Jacobian L_Small P_Stress P_Cbc P_Scaling P_Viscous L_Units P_Units P_Units2 P_Units3.
From Verif Require Import S_Formulation.
Import ListNotations.
Open Scope R_scope.
Open Scope list_scope.

(** Derivatives in space of the unknowns and of the mixed unknown (strain rate and temperature gradient): the lengths
    keep their values, so every row goes like the unknown it belongs to. *)
Definition convert_slopes (a : R) (dU : matrix) : matrix := tabulate 4 2 (fun i j => weight 2 a i * entry dU i j).
Definition convert_mixed_slopes (a : R) (dQ : matrix) : matrix :=
  tabulate 5 2 (fun k j => nth k (convert_five a (map (fun i => entry dQ i j) (seq 0 5))) 0).

Lemma slopes_apply a dU x : rows dU = 4%nat -> cols dU = 2%nat -> length x = 2%nat -> mvmul (convert_slopes a dU) x = convert 2 a (mvmul dU x).
Proof.
  intros Rw Cl L. apply convert_make; [rewrite mvmul_length; reflexivity|]. intros i I. change (2 + 2)%nat with 4%nat in I.
  rewrite !mvmul_total by (rewrite ?Rw; exact I). rewrite Cl. change (cols (convert_slopes a dU)) with 2%nat. cbn [total].
  unfold convert_slopes. rewrite !entry_tabulate by lia. ring.
Qed.

Lemma mixed_slopes_apply a dQ x : rows dQ = 5%nat -> cols dQ = 2%nat -> length x = 2%nat -> mvmul (convert_mixed_slopes a dQ) x = convert_five a (mvmul dQ x).
Proof.
  intros Rw Cl L. apply nth_ext with (d := 0) (d' := 0); [rewrite mvmul_length; reflexivity|]. intros i I. rewrite mvmul_length in I. change (i < 5)%nat in I.
  rewrite mvmul_total by exact I. change (cols (convert_mixed_slopes a dQ)) with 2%nat. cbn [total]. unfold convert_mixed_slopes. rewrite !entry_tabulate by lia.
  destruct i as [|[|[|[|[|i]]]]]; [..|lia]; cbn [convert_five nth map seq]; rewrite mvmul_total by (rewrite Rw; lia); rewrite Cl; cbn [total]; ring.
Qed.

(** What a characteristic boundary condition of a viscous flow takes from the diffusion, for all mixed methods and all targets. *)
Theorem c83_viscous_terms : forall s sc mm tg st Q dU dQ n t n0 n1 t0 t1 re pr mu V, 1 < s_gamma s -> 0 < s_mach s -> s_dim s = 2%nat -> boundary_point s st Q dU dQ n t n0 n1 t0 t1 ->
  reference_reynolds_number s = Ok re -> prandtl_number s = Ok pr -> re <> 0 -> pr <> 0 ->
  get_conservative_fields s (conservative_list (s_gamma s) st) = Ok V -> viscosity s V = Ok mu ->
  let a := unit_ratio s sc in
  let U := conservative_list (s_gamma s) st in
  exists S, cbc_viscous_terms s mm tg U Q dU dQ n t = Ok S /\ length S = 4%nat /\
    cbc_viscous_terms (with_scaling s sc) mm tg (convert 2 a U) (convert_five a Q) (convert_slopes a dU) (convert_mixed_slopes a dQ) n t = Ok (vscale a (convert 2 a S)).
Proof.
  intros s sc mm tg st Q dU dQ n t n0 n1 t0 t1 re pr mu V G M D2 B Er Ep R0 P0 EV Em a U.
  pose proof (unit_ratio_pos s sc M) as A. fold a in A.
  assert (Zr : vscale a (convert 2 a (repeat 0 4)) = repeat 0 4) by (cbn; repeat (apply f_equal2; [ring|]); reflexivity).
  destruct mm; [exists (repeat 0 4); unfold cbc_viscous_terms; change (s_dim (with_scaling s sc)) with (s_dim s); rewrite D2, Zr; repeat split| |exists (repeat 0 4); unfold cbc_viscous_terms; change (s_dim (with_scaling s sc)) with (s_dim s); rewrite D2, Zr; repeat split].
  destruct B as (Va & Lu & LQ & U1 & U2 & U3 & Q1 & Q2 & Q3 & Hn & Ht & O). pose proof Hn as Hn'. pose proof Ht as Ht'. destruct Hn' as [En Nn]. destruct Ht' as [Et Nt].
  assert (EV' := EV). rewrite fields_ok in EV' by (trivial; congruence). apply ok_inj in EV'.
  set (s' := with_scaling s sc). set (st' := convert_state a st). assert (Va' : valid st') by (apply convert_valid; trivial). assert (Lu' : length (st_u st') = 2%nat) by (apply convert_dim; exact Lu).
  assert (Er' : reference_reynolds_number s' = Ok (re / a)) by (apply reynolds_convert; trivial). assert (R0' : re / a <> 0) by (apply Rmult_integral_contrapositive_currified; [exact R0|apply Rinv_neq_0_compat; lra]).
  assert (EU : conservative_list (s_gamma s') st' = convert 2 a U) by (apply convert_list; trivial).
  assert (EV2 : get_conservative_fields s' (conservative_list (s_gamma s') st') = Ok (full_fields s' st')) by (apply fields_ok; trivial; exact (eq_trans Lu' (eq_sym D2))).
  assert (Em' : viscosity s' (full_fields s' st') = Ok mu) by (unfold s', st', a; rewrite full_convert by trivial; apply viscosity_convert; trivial; now rewrite EV').
  destruct (c64_terms s tg st Q dU dQ n t n0 n1 t0 t1 re pr mu V G D2 Va Lu LQ U1 U2 U3 Q1 Q2 Q3 Hn Ht O Er Ep R0 P0 EV Em) as (q & Jt & Jn & Kt & S & E1 & E2 & E3 & E4 & E5 & E6 & E7).
  destruct (c64_terms s' tg st' (convert_five a Q) (convert_slopes a dU) (convert_mixed_slopes a dQ) n t n0 n1 t0 t1 (re / a) pr mu (full_fields s' st') G D2 Va' Lu' eq_refl eq_refl eq_refl eq_refl eq_refl eq_refl eq_refl Hn Ht O Er' Ep R0' P0 EV2 Em')
    as (q' & Jt' & Jn' & Kt' & S' & F1 & F2 & F3 & F4 & F5 & F6 & F7).
  subst V. exists S. split; [exact E5|]. split; [exact E6|]. rewrite EU in F5. rewrite F5. f_equal.
  assert (Ln : length n = 2%nat) by (rewrite En; reflexivity). assert (Lt : length t = 2%nat) by (rewrite Et; reflexivity).
  rewrite (mixed_fields_ok s D2 Q LQ) in E1. apply ok_inj in E1. subst q. rewrite (mixed_fields_ok s' D2 (convert_five a Q) eq_refl) in F1. apply ok_inj in F1. subst q'.
  destruct (conservative_jacobian_ok s mu re D2 Er st Q t Va Lu LQ Lt R0 Em) as (J1 & X1 & Y1). rewrite E2 in X1. apply ok_inj in X1. subst J1.
  destruct (conservative_jacobian_ok s mu re D2 Er st Q n Va Lu LQ Ln R0 Em) as (J1 & X1 & Y2). rewrite E3 in X1. apply ok_inj in X1. subst J1.
  destruct (mixed_jacobian_ok s mu re pr D2 Er Ep st t Va Lu Lt R0 P0 Em) as (J1 & X1 & Y3). rewrite E4 in X1. apply ok_inj in X1. subst J1.
  destruct (conservative_jacobian_ok s' mu (re / a) D2 Er' st' (convert_five a Q) t Va' Lu' eq_refl Lt R0' Em') as (J1 & X1 & Y1'). rewrite F2 in X1. apply ok_inj in X1. subst J1.
  destruct (conservative_jacobian_ok s' mu (re / a) D2 Er' st' (convert_five a Q) n Va' Lu' eq_refl Ln R0' Em') as (J1 & X1 & Y2'). rewrite F3 in X1. apply ok_inj in X1. subst J1.
  destruct (mixed_jacobian_ok s' mu (re / a) pr D2 Er' Ep st' t Va' Lu' Lt R0' P0 Em') as (J1 & X1 & Y3'). rewrite F4 in X1. apply ok_inj in X1. subst J1.
  cbv zeta in Y1, Y2, Y1', Y2', E7, F7.
  rewrite (slopes_apply a dU t U1 U2 Lt), (slopes_apply a dU n U1 U2 Ln), (mixed_slopes_apply a dQ t Q1 Q2 Lt), (mixed_slopes_apply a dQ n Q1 Q2 Ln) in F7.
  assert (LU : forall x, length (mvmul dU x) = 4%nat) by (intros x; rewrite mvmul_length; exact U1). assert (LD : forall x, length (mvmul dQ x) = 5%nat) by (intros x; rewrite mvmul_length; exact Q1).
  rewrite (Y1 _ (LU t)), (Y2 _ (LU n)), (Y3 _ (LD t)) in E7. rewrite (Y1' _ (convert_length 2 a _)), (Y2' _ (convert_length 2 a _)), (Y3' (convert_five a (mvmul dQ t)) eq_refl) in F7.
  assert (Us : st_u st' = [a * nth 0 (st_u st) 0; a * nth 1 (st_u st) 0]) by (unfold st', convert_state; cbn [st_u]; rewrite (two_u (st_u st) Lu); reflexivity).
  rewrite Us in F7. change (st_rho st') with (st_rho st) in F7. rewrite !(convert_nth 2 a) in F7 by lia. set (dt := mvmul dU t) in *. set (dn := mvmul dU n) in *. set (qt := mvmul dQ t) in *. set (qn := mvmul dQ n) in *.
  clear Y1 Y2 Y3 Y1' Y2' Y3' E2 E3 E4 E5 F2 F3 F4 F5 EU Us EV EV2 Em Em'. destruct Va as [Vr _].
  apply scaled_make; [exact F6|]. intros i I. change (2 + 2)%nat with 4%nat in I. rewrite (E7 i I), (F7 i I). subst n t. unfold weight.
  destruct i as [|[|[|[|i]]]]; [..|lia]; unfold kept, kept_stress, kept_heat, along, flux_in, traction, convert_five; cbn [nth Nat.eqb Nat.leb]; destruct tg; try ring; field; repeat split; trivial; lra.
Qed.
Print Assumptions c83_viscous_terms.

(** The boundary point of [c64_example] in the aeroacoustic scaling. *)
Example c83_example_viscous :
  boundary_point thick_air drifting [1; 0; 2; 0; 0] some_dU some_dQ [0; 1] [-1; 0] 0 1 (-1) 0 /\ unit_ratio thick_air Aeroacoustic <> 1 /\ 0 < s_mach thick_air /\
  reference_reynolds_number thick_air = Ok 10 /\ prandtl_number thick_air = Ok (1 / 2) /\ viscosity thick_air (full_fields thick_air drifting) = Ok 1.
Proof.
  destruct c64_example as (_ & B & Er & Ep & Em & _). split; [exact B|]. split; [unfold unit_ratio; cbn; lra|]. split; [cbn; lra|]. split; [exact Er|]. split; [exact Ep|exact Em].
Qed.
