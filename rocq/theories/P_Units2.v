(** C83: boundary conditions in the reference values of another scaling. *)
From Coq Require Import Reals String List Arith Bool Lia Lra.
From Coquelicot Require Import Coquelicot.
From Verif Require Import Base M_Bla M_Flow M_Formulation M_Weak M_Mixed S_Flow S_Chars S_Formulation S_Scaling S_Stress S_Weak S_Mixed S_Turn S_Units L_Flow L_Formulation L_Weak P_Eos P_Chars P_Jacobian P_Split P_Riemann P_Boundary P_Unknowns L_Small L_Curve L_Turn P_Stress P_Trace L_Turn2 P_Mixed P_Cbc P_Scaling P_Turn P_Turn2 L_Units P_Units.
From Verif Require Import S_Formulation.
Import ListNotations.
Open Scope R_scope.
Open Scope list_scope.

(** ** Given flow fields *)

Section Given.
Variables (s : settings) (a : R) (U : flow).
Hypothesis A0 : 0 < a.

Lemma a_square : a * a <> 0.
Proof. nra. Qed.

Lemma density_convert : density s (convert_flow a U) = density s U.
Proof.
  pose proof a_square as N. unfold density, eos_density. cbn [convert_flow f_rho f_p f_T f_c f_rho_Ei]. set (g := s_gamma s).
  destruct (f_rho U); [reflexivity|]. destruct (f_p U) as [p|], (f_T U) as [T|], (f_c U) as [c|], (f_rho_Ei U) as [e|]; cbn [option_map equation]; trivial; do 1 f_equal;
    try (replace (g / (g - 1) * (a * a * p)) with (a * a * (g / (g - 1) * p)) by ring; now apply cancel_div);
    try (replace (g * (a * a * p)) with (a * a * (g * p)) by ring; replace ((a * c) ^ 2) with (a * a * c ^ 2) by ring; now apply cancel_div);
    try (replace (g * (a * a * e)) with (a * a * (g * e)) by ring; now apply cancel_div).
Qed.

Lemma momentum_convert m : momentum U = Ok m -> momentum (convert_flow a U) = Ok (vscale a m).
Proof.
  unfold momentum. cbn [convert_flow f_rho_u f_rho f_u]. intros H. destruct (f_rho_u U) as [v|]; [cbn in *; apply ok_inj in H; now subst|].
  destruct (f_rho U) as [r|]; [|discriminate H]. destruct (f_u U) as [v|]; [|discriminate H]. cbn in *. apply ok_inj in H. subst. f_equal.
  unfold vscale. rewrite !map_map. apply map_ext. intros. ring.
Qed.

Lemma inner_energy_convert e : inner_energy s U = Ok e -> inner_energy s (convert_flow a U) = Ok (a * a * e).
Proof.
  unfold inner_energy, eos_inner_energy. cbn [convert_flow f_rho_Ei f_p f_rho f_T f_rho_E f_rho_Ek]. intros H.
  destruct (f_rho_Ei U), (f_p U), (f_rho U), (f_T U), (f_rho_E U), (f_rho_Ek U); cbn [option_map equation] in *; try discriminate H; apply ok_inj in H; subst; f_equal; unfold Rdiv; ring.
Qed.

Lemma kinetic_convert e : kinetic_energy U = Ok e -> kinetic_energy (convert_flow a U) = Ok (a * a * e).
Proof.
  unfold kinetic_energy. cbn [convert_flow f_rho_Ei f_u f_rho_u f_rho f_Ek f_rho_E f_rho_Ek]. intros H.
  destruct (f_rho_Ek U), (f_rho U), (f_u U), (f_rho_u U), (f_rho_E U), (f_rho_Ei U), (f_Ek U); cbn [option_map equation] in *; try discriminate H; apply ok_inj in H; subst; f_equal; rewrite ?convert_square; unfold Rdiv; ring.
Qed.

Lemma specific_kinetic_convert e : specific_kinetic_energy U = Ok e -> specific_kinetic_energy (convert_flow a U) = Ok (a * a * e).
Proof.
  unfold specific_kinetic_energy. cbn [convert_flow f_Ei f_u f_rho_u f_rho f_Ek f_E f_rho_Ek]. intros H.
  destruct (f_Ek U), (f_rho U), (f_u U), (f_rho_u U), (f_E U), (f_Ei U), (f_rho_Ek U); cbn [option_map equation] in *; try discriminate H; apply ok_inj in H; subst; f_equal; rewrite ?convert_square; unfold Rdiv; ring.
Qed.

Lemma energy_convert e : energy s U = Ok e -> energy s (convert_flow a U) = Ok (a * a * e).
Proof.
  unfold energy. cbn [convert_flow f_rho_E f_rho f_E f_rho_Ei f_rho_Ek]. intros H.
  assert (Last : equation (let* e := inner_energy s U in let* k := kinetic_energy U in Ok (Some (e + k))) = Ok e ->
    equation (let* e := inner_energy s (convert_flow a U) in let* k := kinetic_energy (convert_flow a U) in Ok (Some (e + k))) = Ok (a * a * e)).
  { intros K. destruct (inner_energy s U) as [i|] eqn:Ei; [|discriminate K]. destruct (kinetic_energy U) as [k|] eqn:Ek; [|discriminate K].
    rewrite (inner_energy_convert i Ei), (kinetic_convert k Ek). cbn in *. apply ok_inj in K. subst. f_equal. ring. }
  destruct (f_rho_E U), (f_rho U), (f_E U), (f_rho_Ei U), (f_rho_Ek U); cbn [option_map] in *; try (apply Last; exact H); cbn [equation] in *; apply ok_inj in H; subst; f_equal; ring.
Qed.

Lemma convert_parts d rho m e : length m = d -> convert d a (rho :: m ++ [e]) = rho :: vscale a m ++ [a * a * e].
Proof.
  intros L. symmetry. apply convert_make; [cbn [length]; rewrite app_length, vscale_length; cbn; lia|]. intros i I. destruct (weight_parts d a) as (W0 & W1 & W2).
  destruct i as [|i]; [rewrite W0; cbn; ring|]. cbn [nth]. destruct (Nat.eq_dec i d) as [->|Ni].
  - rewrite !app_nth2 by (rewrite ?vscale_length; lia). rewrite vscale_length, L, Nat.sub_diag. replace (S d) with (d + 1)%nat by lia. rewrite W2. reflexivity.
  - rewrite !app_nth1 by (rewrite ?vscale_length; lia). replace (S i) with (i + 1)%nat by lia. rewrite W1 by lia. apply vscale_nth.
Qed.

Lemma given_convert d w : sized d U -> conservative_vector s U = Ok w -> length w = (d + 2)%nat /\ conservative_vector s (convert_flow a U) = Ok (convert d a w).
Proof.
  intros S H. unfold conservative_vector in *. apply bind_ok in H as (rho & Er & H). apply bind_ok in H as (m & Em & H). apply bind_ok in H as (e & Ee & H). apply ok_inj in H. subst w.
  destruct (momentum_turn d (fun _ _ => 0) U m S Em) as [Lm _]. split; [cbn [length]; rewrite app_length, Lm; cbn; lia|].
  rewrite density_convert, Er, (momentum_convert m Em), (energy_convert e Ee). cbn [bind]. now rewrite convert_parts.
Qed.
End Given.

Section Conditions.
Variables (s : settings) (sc : scaling).
Hypothesis G : 1 < s_gamma s.
Hypothesis M : 0 < s_mach s.
Notation a := (unit_ratio s sc).
Notation s' := (with_scaling s sc).

Lemma ratio_pos : 0 < a.
Proof. now apply unit_ratio_pos. Qed.

Lemma fields_convert st : valid st -> length (st_u st) = s_dim s ->
  get_conservative_fields s' (convert (s_dim s) a (conservative_list (s_gamma s) st)) = Ok (convert_flow a (full_fields s st)).
Proof.
  intros V Dim. rewrite <- (convert_list (s_gamma s) a st G V (s_dim s) Dim), <- (full_convert s sc st G M V).
  exact (fields_ok s' (convert_state a st) G (convert_valid a st ratio_pos V) (convert_dim a st _ Dim)).
Qed.

Lemma outflow_convert st p w : valid st -> length (st_u st) = s_dim s ->
  outflow_state s p (conservative_list (s_gamma s) st) = Ok w ->
  length w = (s_dim s + 2)%nat /\ outflow_state s' (a * a * p) (convert (s_dim s) a (conservative_list (s_gamma s) st)) = Ok (convert (s_dim s) a w).
Proof.
  intros V Dim H. unfold outflow_state in *. rewrite (fields_convert st V Dim). rewrite (fields_ok s st G V Dim) in H. cbn [bind] in H |- *.
  destruct (full_sized s st Dim) as [Su Sm]. refine (given_convert s a _ ratio_pos (s_dim s) w _ H). split; intros v Hv; [discriminate Hv|exact (Sm v Hv)].
Qed.

Lemma slip_convert st n : slip (convert_state a st) n (s_gamma s) = convert_state a (slip st n (s_gamma s)).
Proof.
  unfold slip, convert_state. cbn [st_rho st_u st_p]. rewrite convert_speed. f_equal; [|ring].
  set (un := inner (st_u st) n). clearbody un. generalize (st_u st). intros u. revert n. induction u as [|x u IH]; intros [|y n]; cbn; trivial. f_equal; [ring|]. apply IH.
Qed.
End Conditions.

(** The conditions of outflows, walls and symmetries hold for the same flow, with pressure and temperature in the units of the scaling. *)
Theorem c83_walls : forall s sc st Uhat n p T, 1 < s_gamma s -> 0 < s_mach s -> valid st -> length (st_u st) = s_dim s ->
  length Uhat = (s_dim s + 2)%nat -> length n = s_dim s -> inner n n = 1 ->
  let a := unit_ratio s sc in
  let s' := with_scaling s sc in
  let U := conservative_list (s_gamma s) st in
  converted_result (s_dim s) a 1 (outflow_residual s p U Uhat) (outflow_residual s' (a * a * p) (convert (s_dim s) a U) (convert (s_dim s) a Uhat)) /\
  converted_result (s_dim s) a 1 (inviscid_wall_residual s U Uhat n) (inviscid_wall_residual s' (convert (s_dim s) a U) (convert (s_dim s) a Uhat) n) /\
  converted_result (s_dim s) a 1 (isothermal_wall_residual s T U Uhat) (isothermal_wall_residual s' (a * a * T) (convert (s_dim s) a U) (convert (s_dim s) a Uhat)).
Proof.
  intros s sc st Uhat n p T G M V Dim Lh Ln N a s' U. pose proof (unit_ratio_pos s sc M) as A. fold a in A.
  pose proof (convert_valid a st A V) as V'. pose proof (convert_dim a st _ Dim) as Dim'.
  assert (Fin : forall w, length w = (s_dim s + 2)%nat -> length (vsub Uhat w) = (s_dim s + 2)%nat /\ vsub (convert (s_dim s) a Uhat) (convert (s_dim s) a w) = vscale 1 (convert (s_dim s) a (vsub Uhat w))).
  { intros w Lw. split; [rewrite vsub_length; lia|]. rewrite vscale_one. now apply convert_vsub. }
  repeat match goal with |- _ /\ _ => split end; intros v Hv.
  - unfold outflow_residual in *. apply bind_ok in Hv as (w & Ew & Hv). apply ok_inj in Hv. subst v.
    destruct (outflow_convert s sc G M st p w V Dim Ew) as [Lw Ew']. fold a in Ew'. fold s' in Ew'. fold U in Ew'. rewrite Ew'. cbn [bind]. destruct (Fin w Lw) as [X Y]. split; [exact X|]. now rewrite Y.
  - unfold inviscid_wall_residual in *. unfold U in *. rewrite <- (convert_list (s_gamma s) a st G V (s_dim s) Dim).
    rewrite (wall_value s st n G V Dim Ln N) in Hv. cbn [bind] in Hv. apply ok_inj in Hv. subst v.
    pose proof (wall_value s' (convert_state a st) n G V' Dim' Ln N) as X. change (s_gamma s') with (s_gamma s) in X. rewrite X. clear X.
    pose proof (c50_slip st n (s_gamma s) G V ltac:(lia) N) as (Vs & Ls & _). rewrite Dim in Ls.
    cbn [bind]. destruct (Fin (conservative_list (s_gamma s) (slip st n (s_gamma s)))) as [X Y]; [rewrite conservative_list_length; lia|]. split; [exact X|].
    rewrite <- Y. do 2 f_equal. unfold a. rewrite slip_convert. now apply convert_list.
  - unfold isothermal_wall_residual in *. unfold U in *. rewrite <- (convert_list (s_gamma s) a st G V (s_dim s) Dim).
    rewrite (isothermal_value s st T G V Dim) in Hv. cbn [bind] in Hv. apply ok_inj in Hv. subst v.
    pose proof (isothermal_value s' (convert_state a st) (a * a * T) G V' Dim') as X. change (s_gamma s') with (s_gamma s) in X. change (s_dim s') with (s_dim s) in X. rewrite X. clear X. cbn [bind].
    assert (Li : length (st_u (isothermal st (s_dim s) T (s_gamma s))) = s_dim s) by (cbn; apply repeat_length).
    destruct (Fin (conservative_list (s_gamma s) (isothermal st (s_dim s) T (s_gamma s)))) as [X Y]; [rewrite conservative_list_length; lia|]. split; [exact X|].
    rewrite <- Y. do 2 f_equal.
    assert (E : isothermal (convert_state a st) (s_dim s) (a * a * T) (s_gamma s) = convert_state a (isothermal st (s_dim s) T (s_gamma s))).
    { unfold isothermal, convert_state. cbn [st_rho st_u st_p]. f_equal; [|unfold Rdiv; ring]. clear. induction (s_dim s) as [|k IH]; [reflexivity|]. cbn. rewrite Rmult_0_r. f_equal. exact IH. }
    rewrite E. clear E.
    destruct V as [R0 P0]. apply convert_make; [rewrite conservative_list_length; rewrite (convert_dim a _ (s_dim s) Li); reflexivity|]. intros i I.
    unfold conservative_list. destruct (weight_parts (s_dim s) a) as (W0 & W1 & W2). destruct i as [|i]; [cbn; ring|]. cbn [nth].
    rewrite (convert_rho_u a). destruct (Nat.eq_dec i (s_dim s)) as [->|Ni].
    + rewrite !app_nth2 by (rewrite ?vscale_length, ?q_rho_u_length, ?Li; lia). rewrite vscale_length, q_rho_u_length, Li, Nat.sub_diag. cbn [nth].
      replace (S (s_dim s)) with (s_dim s + 1)%nat by lia. rewrite W2. unfold q_rho_E, q_E, q_Ei, q_rho_Ei. rewrite convert_Ek. cbn. field. lra.
    + rewrite !app_nth1 by (rewrite ?vscale_length, ?q_rho_u_length, ?Li; lia). replace (S i) with (i + 1)%nat by lia. rewrite W1 by lia. apply vscale_nth.
Qed.
Print Assumptions c83_walls.

(** ** Far fields and characteristic boundary conditions in the plane *)

Section Plane.
Variables (s : settings) (sc : scaling) (st : state) (n : list R).
Hypothesis G : 1 < s_gamma s.
Hypothesis M : 0 < s_mach s.
Hypothesis D2 : s_dim s = 2%nat.
Hypothesis V : valid st.
Hypothesis Dim : length (st_u st) = 2%nat.
Hypothesis Ln : length n = 2%nat.
Hypothesis N : inner n n = 1.
Notation a := (unit_ratio s sc).
Notation s' := (with_scaling s sc).

Lemma farfield_convert b fields w U v : conservative_vector s fields = Ok w -> length w = 4%nat -> length U = 4%nat ->
  forall fields', conservative_vector s fields' = Ok (convert 2 a w) ->
  farfield_residual s fields b U (conservative_list (s_gamma s) st) n = Ok v ->
  length v = 4%nat /\ farfield_residual s' fields' b (convert 2 a U) (convert 2 a (conservative_list (s_gamma s) st)) n = Ok (vscale (if b then 1 else a) (convert 2 a v)).
Proof.
  intros Ew Lw LU fields' Ew' H. pose proof (unit_ratio_pos s sc M) as A.
  destruct (unit_two n Ln N) as (n0 & n1 & N2). destruct (two_entries (st_u st) Dim) as (ux & uy & Eu).
  rewrite (L_Curve.farfield_value s st ux uy n0 n1 n G V Eu D2 N2 b fields w U Ew Lw LU) in H. apply ok_inj in H.
  pose proof (L_Curve.farfield_value s' (convert_state a st) _ _ n0 n1 n G (convert_valid a st A V) (convert_velocity a st ux uy Eu) D2 N2 b fields' _ _ Ew' (convert_length 2 a w) (convert_length 2 a U)) as X.
  change (s_gamma s') with (s_gamma s) in X. rewrite (convert_list (s_gamma s) a st G V 2 Dim), (convert_c (s_gamma s) a st G A V) in X. rewrite X. clear X.
  set (H0 := conservative_list (s_gamma s) st) in *. assert (LH : length H0 = 4%nat) by (unfold H0; rewrite conservative_list_length, Dim; reflexivity).
  set (P' := PP (s_gamma s) (st_rho (convert_state a st)) (a * ux) (a * uy) (a * q_c (s_gamma s) st) n0 n1). set (Q' := QQ (s_gamma s) (st_rho (convert_state a st)) (a * ux) (a * uy) (a * q_c (s_gamma s) st) n0 n1).
  set (P := PP (s_gamma s) (st_rho st) ux uy (q_c (s_gamma s) st) n0 n1) in *. set (Q := QQ (s_gamma s) (st_rho st) ux uy (q_c (s_gamma s) st) n0 n1) in *.
  assert (W : forall l x, length x = 4%nat -> mvmul (wave P' Q' l) (convert 2 a x) = convert 2 a (mvmul (wave P Q l) x)).
  { intros l x Lx. pose proof (wave_convert s a st ux uy n0 n1 n G A V Eu N2 l x Lx) as X.
    rewrite (wP_here s st ux uy n0 n1 n Eu N2), (wQ_here s st ux uy n0 n1 n Eu N2) in X. fold P Q in X. rewrite <- X.
    unfold wP, wQ. rewrite (convert_velocity a st ux uy Eu), (convert_c (s_gamma s) a st G A V). destruct N2 as [-> _]. reflexivity. }
  assert (L4 : forall l x, length (mvmul (wave P Q l) x) = 4%nat) by (intros l x; rewrite mvmul_length; reflexivity).
  assert (Sub : forall x y, length x = 4%nat -> length y = 4%nat -> length (vsub x y) = 4%nat) by (intros x y Lx Ly; rewrite vsub_length, Lx, Ly; reflexivity).
  assert (Sp : forall k, wave_speed (a * ux * n0 + a * uy * n1) (a * q_c (s_gamma s) st) k = a * wave_speed (ux * n0 + uy * n1) (q_c (s_gamma s) st) k).
  { intros k. rewrite <- wave_speed_scale. f_equal. ring. }
  subst v. split; [destruct b; apply Sub; auto|]. f_equal. destruct b.
  - rewrite !(wave_same P' Q' (fun k => selected _ (wave_speed (a * ux * n0 + a * uy * n1) (a * q_c (s_gamma s) st) k)) (fun k => selected _ (wave_speed (ux * n0 + uy * n1) (q_c (s_gamma s) st) k)))
      by (intros k K; rewrite Sp; now apply selected_scale).
    rewrite !W by assumption. rewrite !(convert_vsub 2 a) by auto. symmetry. apply vscale_one.
  - rewrite !(wave_same P' Q' (fun k => part _ (wave_speed (a * ux * n0 + a * uy * n1) (a * q_c (s_gamma s) st) k)) (fun k => a * part _ (wave_speed (ux * n0 + uy * n1) (q_c (s_gamma s) st) k)))
      by (intros k K; rewrite Sp; now apply part_scale).
    rewrite !(convert_vsub 2 a H0) by assumption. rewrite !wave_scaled, !W, !convert_vscale by auto. rewrite (convert_vsub 2 a) by (rewrite vscale_length; auto). f_equal.
    apply (nth_ext _ _ 0 0); [rewrite vscale_length, !vsub_length, !vscale_length; reflexivity|]. intros i I.
    rewrite vscale_nth, !vsub_nth by (rewrite ?vscale_length, !L4; reflexivity). rewrite !vscale_nth. ring.
Qed.
Lemma isentropic_convert U ref rho : isentropic_density s U ref = Ok rho -> isentropic_density s' (convert_flow a U) (convert_flow a ref) = Ok rho.
Proof.
  pose proof (a_square a (unit_ratio_pos s sc M)) as N2. unfold isentropic_density, eos_isentropic_density. cbn [convert_flow f_p f_rho f_T with_scaling s_gamma]. intros H.
  destruct (f_p U) as [p|], (f_rho ref) as [r|], (f_p ref) as [p0|], (f_T U) as [t|], (f_T ref) as [t0|]; cbn [option_map equation] in *; try discriminate H; rewrite ?cancel_div by exact N2; exact H.
Qed.

Lemma cbc_state_convert tg fields stU w : sized 2 fields -> valid stU -> length (st_u stU) = 2%nat ->
  cbc_state s tg fields (conservative_list (s_gamma s) stU) = Ok w ->
  length w = 4%nat /\ cbc_state s' tg (convert_flow a fields) (convert 2 a (conservative_list (s_gamma s) stU)) = Ok (convert 2 a w).
Proof.
  intros S VU DU H. pose proof (unit_ratio_pos s sc M) as A.
  assert (DU' : length (st_u stU) = s_dim s) by congruence. pose proof (fields_convert s sc G M stU VU DU') as Fo. rewrite D2 in Fo.
  unfold cbc_state in *. rewrite (fields_ok s stU G VU DU') in H. rewrite Fo. cbn [bind] in H |- *.
  pose proof (full_sized s stU DU') as [Su Sm]. rewrite D2 in Su, Sm. destruct S as [Fu Fm]. destruct tg.
  - apply (given_convert s a fields A 2 w); [split; assumption|exact H].
  - cbn [convert_flow f_p]. destruct (f_p fields) as [p|]; [|discriminate H].
    refine (given_convert s a _ A 2 w _ H). split; intros v Hv; [discriminate Hv|exact (Sm v Hv)].
  - cbn [convert_flow f_rho f_rho_u f_rho_Ek]. destruct (f_rho fields) as [rho|]; [|discriminate H]. destruct (f_rho_u fields) as [m|] eqn:Em; [|discriminate H].
    destruct (f_rho_Ek fields) as [k|]; [|discriminate H]. cbn [option_map].
    refine (given_convert s a _ A 2 w _ H). split; intros v Hv; [discriminate Hv|]. cbn in Hv. injection Hv as <-. now apply Fm.
  - apply bind_ok in H as (rho & Er & H). rewrite (isentropic_convert _ _ rho Er).
    cbn [bind convert_flow f_u]. destruct (f_u fields) as [u|] eqn:Eu; [|discriminate H]. cbn [option_map]. specialize (Fu u eq_refl).
    apply bind_ok in H as (k & Ek & H).
    pose proof (specific_kinetic_convert a (mk_flow (Some rho) (Some u) None None (f_T (full_fields s stU)) None None None None None None None None None) k Ek) as Ek'.
    unfold convert_flow in Ek' at 1. cbn [f_rho f_u f_rho_u f_p f_T f_rho_E f_E f_rho_Ei f_Ei f_rho_Ek f_Ek f_rho_H f_H f_c option_map] in Ek'.
    cbn [convert_flow f_T full_fields option_map] in Ek' |- *. rewrite Ek'. cbn [bind]. refine (given_convert s a _ A 2 w _ H). split; intros v Hv; [|discriminate Hv]. cbn in Hv. injection Hv as <-. exact Fu.
Qed.

(** The converted amplitudes of the converted vector. *)
Lemma cbc_convert kind tg f C beta fields step dt Un stU slope t viscous v : sized 2 fields -> valid stU -> length (st_u stU) = 2%nat ->
  relaxation_values 2 f = Ok C -> length C = 4%nat -> length t = 2%nat -> inner t t = 1 -> step <> 0 ->
  length Un = 4%nat -> length slope = 4%nat -> (forall x, viscous = Some x -> length x = 4%nat) ->
  cbc_residual s kind tg f beta fields step dt Un (conservative_list (s_gamma s) stU) (conservative_list (s_gamma s) st) slope n t viscous = Ok v ->
  length v = 4%nat /\ cbc_residual s' kind tg f beta (convert_flow a fields) (step / a) (dt / a) (convert 2 a Un) (convert 2 a (conservative_list (s_gamma s) stU))
    (convert 2 a (conservative_list (s_gamma s) st)) (convert 2 a slope) n t (option_map (fun x => vscale a (convert 2 a x)) viscous) = Ok (convert 2 a v).
Proof.
  intros S VU DU Ef LC Lt Nt S0 LUn Ls Lv H. pose proof (unit_ratio_pos s sc M) as A.
  destruct (unit_two n Ln N) as (n0 & n1 & N2). destruct (unit_two t Lt Nt) as (t0 & t1 & T2). destruct (two_entries (st_u st) Dim) as (ux & uy & Eu).
  assert (Ew : exists w, cbc_state s tg fields (conservative_list (s_gamma s) stU) = Ok w).
  { unfold cbc_residual in H. apply bind_ok in H as (? & _ & H). apply bind_ok in H as (w & Ew & _). now exists w. }
  destruct Ew as (w & Ew). destruct (cbc_state_convert tg fields stU w S VU DU Ew) as [Lw Ew'].
  assert (LU : length (conservative_list (s_gamma s) stU) = 4%nat) by (rewrite conservative_list_length, DU; reflexivity).
  assert (LH : length (conservative_list (s_gamma s) st) = 4%nat) by (rewrite conservative_list_length, Dim; reflexivity).
  destruct (c58_waves s kind tg f C beta fields step dt Un (conservative_list (s_gamma s) stU) st slope viscous w ux uy n n0 n1 t t0 t1 G V Eu D2 N2 T2 Ef LC Ew Lw LU) as (P & Pi & B & r & Inv & EPi & EB & Er & Lr & Am).
  rewrite H in Er. apply ok_inj in Er. subst r. split; [exact Lr|].
  pose proof (convert_velocity a st ux uy Eu) as Eu'. pose proof (convert_valid a st A V) as V'.
  destruct (c58_waves s' kind tg f C beta (convert_flow a fields) (step / a) (dt / a) (convert 2 a Un) (convert 2 a (conservative_list (s_gamma s) stU)) (convert_state a st) (convert 2 a slope)
    (option_map (fun x => vscale a (convert 2 a x)) viscous) (convert 2 a w) _ _ n n0 n1 t t0 t1 G V' Eu' D2 N2 T2 Ef LC Ew' (convert_length 2 a w) (convert_length 2 a _)) as (P' & Pi' & B' & r' & Inv' & EPi' & EB' & Er' & Lr' & Am').
  change (s_gamma s') with (s_gamma s) in Er', Am'. change (s_mach s') with (s_mach s) in Am'.
  rewrite (convert_list (s_gamma s) a st G V 2 Dim) in Er', Am'. rewrite Er'. f_equal.
  rewrite (proj2 (proj2 (state_matrices s st ux uy n0 n1 n G V Eu N2))) in EPi. apply ok_inj in EPi.
  rewrite (proj2 (proj2 (state_matrices s' (convert_state a st) _ _ n0 n1 n G V' Eu' N2))) in EPi'. apply ok_inj in EPi'.
  assert (QPi : Pi = wQ s st n) by (rewrite <- EPi; symmetry; apply wQ_here; assumption).
  assert (QPi' : Pi' = wQ s (convert_state a st) n) by (rewrite <- EPi'; unfold wQ; rewrite Eu'; destruct N2 as [-> _]; reflexivity).
  (* the change along the tangent *)
  destruct (jacobian_acts s st ux uy t0 t1 t G V Eu T2 Full ltac:(discriminate)) as (B1 & EB1 & AB). rewrite EB in EB1. apply ok_inj in EB1. subst B1.
  destruct (jacobian_acts s' (convert_state a st) _ _ t0 t1 t G V' Eu' T2 Full ltac:(discriminate)) as (B1 & EB1 & AB'). rewrite EB' in EB1. apply ok_inj in EB1. subst B1.
  change (s_gamma s') with (s_gamma s) in AB'. rewrite (convert_c (s_gamma s) a st G A V) in Am', AB'.
  assert (Sp : forall m0 m1 k, wave_speed (a * ux * m0 + a * uy * m1) (a * q_c (s_gamma s) st) k = a * wave_speed (ux * m0 + uy * m1) (q_c (s_gamma s) st) k).
  { intros m0 m1 k. rewrite <- wave_speed_scale. f_equal. ring. }
  assert (Sl : mvmul B' (convert 2 a slope) = vscale a (convert 2 a (mvmul B slope))).
  { rewrite (acts_mvmul _ _ _ _ _ AB), (acts_mvmul _ _ _ _ _ AB').
    rewrite (wave_same _ _ _ (fun k => a * part Full (wave_speed (ux * t0 + uy * t1) (q_c (s_gamma s) st) k))) by (intros k K; rewrite Sp; reflexivity). rewrite wave_scaled. f_equal.
    pose proof (wave_convert s a st ux uy t0 t1 t G A V Eu T2 (fun k => part Full (wave_speed (ux * t0 + uy * t1) (q_c (s_gamma s) st) k)) slope Ls) as X.
    rewrite (wP_here s st ux uy t0 t1 t Eu T2), (wQ_here s st ux uy t0 t1 t Eu T2) in X. rewrite <- X. unfold wP, wQ. rewrite Eu', (convert_c (s_gamma s) a st G A V). destruct T2 as [-> _]. reflexivity. }
  rewrite Sl in Am'. assert (LBs : length (mvmul B slope) = 4%nat) by (rewrite (acts_mvmul _ _ _ _ _ AB), mvmul_length; reflexivity).
  pose proof (amplitudes_convert s a st ux uy n G A V Eu) as Ha0. rewrite <- QPi, <- QPi' in Ha0.
  assert (Ha : forall x k, length x = 4%nat -> (k < 4)%nat -> amplitude Pi' (convert 2 a x) k = wave_weight a k * amplitude Pi x k) by (intros; now apply Ha0).
  assert (Hs : forall x k, length x = 4%nat -> (k < 4)%nat -> amplitude Pi' (vscale a (convert 2 a x)) k = a * (wave_weight a k * amplitude Pi x k)).
  { intros x k Lx K. rewrite <- (Ha x k Lx K). unfold amplitude. rewrite <- total_scale. apply total_ext. intros j J. rewrite vscale_nth. ring. }
  assert (Rt : forall k, dt / a * relaxation_rate kind 2 C (step / a) (a * q_c (s_gamma s) st) (s_mach s) k = dt * relaxation_rate kind 2 C step (q_c (s_gamma s) st) (s_mach s) k).
  { intros k. unfold relaxation_rate, reference_speed. destruct kind as [|len]; [field; split; lra|]. destruct ((k =? 0)%nat || (k =? 2 + 1)%nat)%bool; unfold Rdiv; generalize (/ len); intros; field; lra. }
  apply (same_amplitudes' P' Pi' _ _ Inv' Lr' (convert_length 2 a v)). intros k K. rewrite (Ha v k Lr K).
  destruct (Am k K) as (Out & In & Zero). destruct (Am' k K) as (Out' & In' & Zero'). rewrite Sp in Out', In', Zero'. rewrite (Rt k) in In'.
  destruct (Rtotal_order (wave_speed (ux * n0 + uy * n1) (q_c (s_gamma s) st) k) 0) as [Z|[Z|Z]].
  - rewrite (In Z), (In' ltac:(nra)), Hs, !Ha by assumption. destruct viscous as [x|]; cbn [option_map]; [rewrite (Hs x) by (trivial; now apply Lv)|]; field; lra.
  - rewrite (Zero Z), (Zero' ltac:(rewrite Z; ring)), Ha by assumption. reflexivity.
  - rewrite (Out Z), (Out' ltac:(nra)), !Ha by assumption. ring.
Qed.
End Plane.

(** A far field with the same fields: the condition with the identity has the same size, the one with the Jacobian goes with the velocity. *)
Theorem c83_farfield : forall s sc st U n fields (b : bool), 1 < s_gamma s -> 0 < s_mach s -> valid st -> length (st_u st) = s_dim s ->
  length U = (s_dim s + 2)%nat -> length n = s_dim s -> inner n n = 1 -> sized (s_dim s) fields ->
  let a := unit_ratio s sc in
  let Uhat := conservative_list (s_gamma s) st in
  converted_result (s_dim s) a (if b then 1 else a) (farfield_residual s fields b U Uhat n)
    (farfield_residual (with_scaling s sc) (convert_flow a fields) b (convert (s_dim s) a U) (convert (s_dim s) a Uhat) n).
Proof.
  intros s sc st U n fields b G M V Dim LU Ln N S a Uhat v H.
  assert (Ew : exists w, conservative_vector s fields = Ok w).
  { unfold farfield_residual in H. apply bind_ok in H as (? & _ & H). apply bind_ok in H as (w & Ew & _). now exists w. }
  destruct Ew as (w & Ew). destruct (given_convert s a fields (unit_ratio_pos s sc M) (s_dim s) w S Ew) as [Lw Ew'].
  destruct (Nat.eq_dec (s_dim s) 2) as [D2|D2].
  - rewrite D2 in *. exact (farfield_convert s sc st n G M D2 V Dim Ln N b fields w U v Ew Lw LU _ Ew' H).
  - unfold Uhat in H. rewrite (c50_farfield_dimension s st fields w b U n G V Dim Ln D2 Ew) in H. discriminate H.
Qed.
Print Assumptions c83_farfield.

(** The characteristic boundary conditions with the same fields and the same step of time, for both kinds and all targets. *)
Theorem c83_cbc : forall s sc st stU kind tg f C beta fields step dt Un slope n t viscous, 1 < s_gamma s -> 0 < s_mach s -> s_dim s = 2%nat ->
  valid st -> length (st_u st) = 2%nat -> valid stU -> length (st_u stU) = 2%nat -> length n = 2%nat -> inner n n = 1 -> length t = 2%nat -> inner t t = 1 ->
  sized 2 fields -> relaxation_values 2 f = Ok C -> length C = 4%nat -> step <> 0 -> length Un = 4%nat -> length slope = 4%nat -> (forall x, viscous = Some x -> length x = 4%nat) ->
  let a := unit_ratio s sc in
  let U := conservative_list (s_gamma s) stU in
  let Uhat := conservative_list (s_gamma s) st in
  converted_result 2 a 1 (cbc_residual s kind tg f beta fields step dt Un U Uhat slope n t viscous)
    (cbc_residual (with_scaling s sc) kind tg f beta (convert_flow a fields) (step / a) (dt / a) (convert 2 a Un) (convert 2 a U) (convert 2 a Uhat) (convert 2 a slope)
      n t (option_map (fun x => vscale a (convert 2 a x)) viscous)).
Proof.
  intros s sc st stU kind tg f C beta fields step dt Un slope n t viscous G M D2 V Dim VU DU Ln N Lt Nt S Ef LC S0 LUn Ls Lv a U Uhat v H. rewrite vscale_one.
  exact (cbc_convert s sc st n G M D2 V Dim Ln N kind tg f C beta fields step dt Un stU slope t viscous v S VU DU Ef LC Lt Nt S0 LUn Ls Lv H).
Qed.
Print Assumptions c83_cbc.
