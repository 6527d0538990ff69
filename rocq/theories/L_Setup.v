(** Lemmas about setting up a problem. *)
From Coq Require Import Reals String List Arith Bool Lra Lia.
From Verif Require Import Base Dict M_Bla M_Flow M_Formulation M_Mixed M_Viscous M_Conditions M_Setup S_Flow S_Conditions S_Setup
  L_Flow L_Conditions P_Eos P_Chars P_Jacobian P_Split P_Boundary P_Conditions.
Import ListNotations.
Open Scope R_scope.
Open Scope string_scope.
Open Scope list_scope.

Definition succeeds {A} (r : result A) : Prop := exists v, r = Ok v.

Lemma succeeds_ok {A} (v : A) : succeeds (Ok v).
Proof. exists v. reflexivity. Qed.

Lemma succeeds_err {A} e : ~ succeeds (@Err A e).
Proof. intros [v H]. discriminate H. Qed.

Lemma succeeds_bind {A B} (r : result A) (f : A -> result B) : succeeds (bind r f) <-> exists a, r = Ok a /\ succeeds (f a).
Proof.
  split.
  - intros [v H]. apply bind_ok in H as (a & E & H). exists a. split; [exact E|exists v; exact H].
  - intros (a & E & v & H). exists v. rewrite E. exact H.
Qed.

Lemma succeeds_then {A} (r : result A) (f : unit) : succeeds (let* _ := r in Ok f) <-> succeeds r.
Proof. rewrite succeeds_bind. split; [intros (a & E & _); exists a; exact E|intros [a E]; exists a; split; [exact E|apply succeeds_ok]]. Qed.

(** ** Complete states *)

Lemma determined_app a b f : determined (a ++ b) f <-> determined a f \/ determined b f.
Proof.
  unfold determined. split.
  - intros (l & I & H). apply in_app_iff in I. destruct I as [I|I]; [left|right]; exists l; split; assumption.
  - intros [(l & I & H)|(l & I & H)]; exists l; (split; [apply in_app_iff; auto|exact H]).
Qed.

Lemma determined_product a b f : determined (flat_map (fun x => map (app x) b) a) f <-> determined a f /\ determined b f.
Proof.
  unfold determined. split.
  - intros (l & I & H). apply in_flat_map in I as (x & Ix & I). apply in_map_iff in I as (y & <- & Iy). split.
    + exists x. split; [exact Ix|]. intros g Ig. apply H, in_app_iff. left. exact Ig.
    + exists y. split; [exact Iy|]. intros g Ig. apply H, in_app_iff. right. exact Ig.
  - intros ((x & Ix & Hx) & (y & Iy & Hy)). exists (x ++ y). split.
    + apply in_flat_map. exists x. split; [exact Ix|]. apply in_map, Iy.
    + intros g Ig. apply in_app_iff in Ig. destruct Ig; auto.
Qed.

Lemma answers_succeeds {A} l f (r : result A) : answers l f r -> (succeeds r <-> determined l f).
Proof.
  intros [[D S]|[D E]]; split; trivial.
  - intros [v H]. rewrite E in H. discriminate H.
  - intros H. contradiction.
Qed.

Lemma momentum_length f m d : momentum f = Ok m ->
  (length m = d <-> (forall m, f_rho_u f = Some m -> length m = d) /\ (f_rho_u f = None -> forall u, f_u f = Some u -> length u = d)).
Proof.
  unfold momentum. destruct (f_rho_u f) as [m0|] eqn:Em.
  - cbn [equation bind]. intros H. injection H as <-. split; [intros L; split; [intros m H; injection H as <-; exact L|discriminate]|intros [H _]; apply H; reflexivity].
  - destruct (f_rho f); [destruct (f_u f) as [u|] eqn:Eu|]; cbn; try discriminate. intros H. injection H as <-. unfold vscale. rewrite map_length. split.
    + intros L. split; [discriminate|]. intros _ u0 H. injection H as <-. exact L.
    + intros [_ H]. apply H; reflexivity.
Qed.

Lemma fits_ok s v : fits s v = Ok tt <-> length v = (s_dim s + 2)%nat.
Proof. unfold fits. destruct (Nat.eqb_spec (length v) (s_dim s + 2)); split; congruence. Qed.

Lemma fits_succeeds s v : succeeds (fits s v) <-> length v = (s_dim s + 2)%nat.
Proof. rewrite <- fits_ok. split; [intros [[] H]; exact H|intros H; exists tt; exact H]. Qed.

Lemma complete_vector s f : complete (s_dim s) f <-> exists v, conservative_vector s f = Ok v /\ length v = (s_dim s + 2)%nat.
Proof.
  destruct (c41_determined s false f) as (A1 & _ & _ & _ & _ & _ & _ & A8 & _ & _ & _ & _ & A13).
  apply answers_succeeds in A1, A8, A13. unfold energy_sources in A8. rewrite determined_app, determined_product in A8.
  unfold complete. change density_from with density_sources. change momentum_from with momentum_sources.
  change inner_energy_from with inner_energy_sources. change kinetic_energy_from with kinetic_energy_sources.
  rewrite <- A1, <- A8, <- A13. unfold conservative_vector. split.
  - intros ([rho Hr] & [m Hm] & [e He] & L). rewrite Hr, Hm, He. cbn [bind]. eexists. split; [reflexivity|].
    apply (momentum_length f m (s_dim s) Hm) in L. cbn [length]. rewrite app_length. cbn [length]. lia.
  - intros (v & H & L). apply bind_ok in H as (rho & Hr & H). apply bind_ok in H as (m & Hm & H). apply bind_ok in H as (e & He & H). apply ok_inj in H. subst v.
    rewrite Hr, Hm, He. split; [apply succeeds_ok|]. split; [apply succeeds_ok|]. split; [apply succeeds_ok|].
    apply (momentum_length f m (s_dim s) Hm). cbn [length] in L. rewrite app_length in L. cbn [length] in L. lia.
Qed.

(** ** Fields of the unknowns *)

(** All the fields that [get_conservative_fields] fills in. *)
Definition filled (d : nat) (V : flow) : Prop := exists rho u m p T E i k c,
  V = mk_flow (Some rho) (Some u) (Some m) (Some p) (Some T) (Some E) None (Some i) None (Some k) None None None (Some c) /\ length u = d /\ length m = d.

Lemma unknown_fields s U : length U = (s_dim s + 2)%nat -> exists V, get_conservative_fields s U = Ok V /\ filled (s_dim s) V.
Proof.
  intros L. assert (Lm : length (firstn (s_dim s) (skipn 1 U)) = s_dim s) by (rewrite firstn_length, skipn_length; lia).
  eexists. split; [reflexivity|]. do 9 eexists. split; [reflexivity|]. split; [|exact Lm].
  unfold vdiv. rewrite map_length. exact Lm.
Qed.

Section Point.
Variables (s : settings) (V : flow) (n : list R).
Hypothesis F : filled (s_dim s) V.
Hypothesis Ln : length n = s_dim s.

Lemma transform_2d m : s_dim s = 2%nat -> succeeds (transform_characteristic_to_conservative s m V n).
Proof.
  intros D. destruct F as (rho & u & mm & p & T & E & i & k & c & -> & Lu & _). rewrite D in Lu, Ln.
  destruct u as [|u0 [|u1 [|u2 u]]]; try discriminate Lu. destruct n as [|n0 [|n1 [|n2 n']]]; try discriminate Ln. eexists. reflexivity.
Qed.

Lemma transform_3d m : s_dim s <> 2%nat -> transform_characteristic_to_conservative s m V n = Err NotImplementedError.
Proof.
  intros D. destruct F as (rho & u & mm & p & T & E & i & k & c & -> & Lu & _).
  destruct (c43_raises s (mk_flow (Some rho) (Some u) (Some mm) (Some p) (Some T) (Some E) None (Some i) None (Some k) None None None (Some c)) n) as (_ & _ & _ & _ & H).
  destruct (H _ _ _ eq_refl eq_refl eq_refl ltac:(lia)) as (HP & _). unfold transform_characteristic_to_conservative. rewrite HP. reflexivity.
Qed.

Lemma velocities_ok t : t <> OtherSplit -> succeeds (characteristic_velocities V n t).
Proof.
  intros T. destruct F as (rho & u & mm & p & Te & E & i & k & c & -> & _). unfold characteristic_velocities, eos_characteristic_velocities. cbn [f_u f_c].
  rewrite !split_part by exact T. eexists. reflexivity.
Qed.

Lemma identity_ok t : t = Incoming \/ t = Outgoing -> succeeds (get_characteristic_identity V n t).
Proof.
  intros T. destruct (velocities_ok t) as [l Hl]; [destruct T; subst; discriminate|]. unfold get_characteristic_identity. rewrite Hl. cbn [bind].
  destruct T; subst t; apply succeeds_ok.
Qed.

Lemma conservative_identity t : t = Incoming \/ t = Outgoing ->
  (s_dim s = 2%nat -> succeeds (get_conservative_convective_identity s V n t)) /\
  (s_dim s <> 2%nat -> get_conservative_convective_identity s V n t = Err NotImplementedError).
Proof.
  intros T. destruct (identity_ok t T) as [m Hm]. unfold get_conservative_convective_identity. rewrite Hm. cbn [bind]. split; [apply transform_2d|apply transform_3d].
Qed.

Lemma conservative_jacobian t : t <> OtherSplit ->
  (s_dim s = 2%nat -> succeeds (get_conservative_convective_jacobian s V n t)) /\
  (s_dim s <> 2%nat -> get_conservative_convective_jacobian s V n t = Err NotImplementedError).
Proof.
  intros T. destruct (velocities_ok t T) as [m Hm]. unfold get_conservative_convective_jacobian. rewrite Hm. cbn [bind]. split; [apply transform_2d|apply transform_3d].
Qed.

Lemma convective_flux_ok : succeeds (get_convective_flux s false V).
Proof. destruct F as (rho & u & mm & p & T & E & i & k & c & -> & _). eexists. reflexivity. Qed.

Lemma stabilisation_ok : succeeds (get_convective_stabilisation_matrix s false V n) <-> s_dim s = 2%nat \/ s_riemann s = LaxFriedrich \/ s_riemann s = HLL.
Proof.
  assert (Vel : succeeds (velocity false V)) by (destruct F as (rho & u & mm & p & T & E & i & k & c & -> & _); eexists; reflexivity).
  assert (Snd : succeeds (speed_of_sound s V)) by (destruct F as (rho & u & mm & p & T & E & i & k & c & -> & _); eexists; reflexivity).
  destruct Vel as [u Hu], Snd as [c Hc]. unfold get_convective_stabilisation_matrix.
  destruct (s_riemann s); rewrite ?Hu, ?Hc; cbn [bind].
  - destruct (conservative_jacobian Outgoing ltac:(discriminate)) as [A B]. destruct (Nat.eq_dec (s_dim s) 2) as [D|D].
    + split; [auto|]. intros _. apply A, D.
    + rewrite (B D). split; [intros H; destruct (succeeds_err _ H)|intros [H|[H|H]]; [contradiction|discriminate H|discriminate H]].
  - split; [auto|]. intros _. apply succeeds_ok.
  - destruct (velocities_ok Absolute ltac:(discriminate)) as [l Hl]. rewrite Hl. cbn [bind]. destruct (Nat.eq_dec (s_dim s) 2) as [D|D].
    + split; [auto|]. intros _. apply transform_2d, D.
    + rewrite (transform_3d _ D). split; [intros H; destruct (succeeds_err _ H)|intros [H|[H|H]]; [contradiction|discriminate H|discriminate H]].
  - split; [auto|]. intros _. apply succeeds_ok.
  - destruct (Nat.eq_dec (s_dim s) 2) as [D|D].
    + split; [auto|]. intros _. match goal with |- succeeds (bind (transform_characteristic_to_conservative s ?m V n) _) => destruct (transform_2d m D) as [M HM] end. rewrite HM. apply succeeds_ok.
    + rewrite (transform_3d _ D). split; [intros H; destruct (succeeds_err _ H)|intros [H|[H|H]]; [contradiction|discriminate H|discriminate H]].
Qed.

(** The viscosity of the unknowns. *)
Definition law_works : Prop := s_law s <> Inviscid /\ forall m, s_law s = Sutherland m -> s_scaling s = Aerodynamic -> 0 < s_mach s.

Lemma viscosity_ok : succeeds (viscosity s V) <-> law_works.
Proof.
  destruct F as (rho & u & mm & p & T & E & i & k & c & -> & _). unfold law_works, viscosity, law_viscosity. cbn [f_T].
  destruct (s_law s) as [| |m] eqn:El; cbn [equation bind].
  - split; [intros H; destruct (succeeds_err _ H)|intros [H _]; contradiction].
  - split; [|intros _; apply succeeds_ok]. intros _. split; [discriminate|intros m H; discriminate H].
  - destruct (s_scaling s) eqn:Es; cbn [scaling_speed_of_sound].
    + destruct (Rle_dec (s_mach s) 0) as [L|L]; cbn [bind].
      * split; [intros H; destruct (succeeds_err _ H)|]. intros [_ H]. specialize (H m eq_refl eq_refl). lra.
      * split; [|intros _; eexists; reflexivity]. intros _. split; [discriminate|]. intros. lra.
    + split; [|intros _; eexists; reflexivity]. intros _. split; [discriminate|]. intros m0 _ H. discriminate H.
    + split; [|intros _; eexists; reflexivity]. intros _. split; [discriminate|]. intros m0 _ H. discriminate H.
Qed.

Lemma numbers_ok : s_law s <> Inviscid -> succeeds (reference_reynolds_number s) /\ succeeds (prandtl_number s).
Proof.
  intros L. unfold reference_reynolds_number, reynolds_number, prandtl_number. destruct (s_law s); [contradiction| |]; split; eexists; reflexivity.
Qed.

Lemma viscosity_viscous : succeeds (viscosity s V) -> s_law s <> Inviscid.
Proof. intros H. apply viscosity_ok in H. apply H. Qed.

Lemma diffusive_flux_ok q : succeeds (get_diffusive_flux s false V q) <-> law_works /\ succeeds (strain_rate_tensor s q) /\ g_T q <> None.
Proof.
  assert (Vel : succeeds (velocity false V)) by (destruct F as (rho & u & mm & p & T & E & i & k & c & -> & _); eexists; reflexivity).
  destruct Vel as [u Hu]. unfold get_diffusive_flux, deviatoric_stress_tensor, heat_flux. rewrite Hu. cbn [bind].
  destruct (viscosity s V) as [mu|e] eqn:Ev.
  - assert (W : law_works) by (apply viscosity_ok; exists mu; exact Ev). destruct (numbers_ok (proj1 W)) as [[re Hre] [pr Hpr]].
    rewrite Hre, Hpr. cbn [bind]. destruct (strain_rate_tensor s q) as [eps|e] eqn:Ee; cbn [bind equation].
    + destruct (g_T q) eqn:Eg; cbn [bind equation].
      * split; [|intros _; eexists; reflexivity]. intros _. repeat split; try apply W; [apply succeeds_ok|discriminate].
      * split; [intros H; destruct (succeeds_err _ H)|intros (_ & _ & H); contradiction].
    + split; [intros H; destruct (succeeds_err _ H)|]. intros (_ & H & _). destruct (succeeds_err _ H).
  - cbn [bind equation]. split; [intros H; destruct (succeeds_err _ H)|]. intros (W & _). apply viscosity_ok in W. rewrite Ev in W. destruct (succeeds_err _ W).
Qed.

Lemma diffusive_stabilisation_ok : law_works -> succeeds (get_diffusive_stabilisation_matrix s V).
Proof.
  intros W. destruct (numbers_ok (proj1 W)) as [[re Hre] [pr Hpr]]. pose proof (proj2 viscosity_ok W) as [mu Hm].
  unfold get_diffusive_stabilisation_matrix. rewrite Hre, Hpr, Hm. apply succeeds_ok.
Qed.
End Point.

(** ** The equations *)

Section Equations.
Variables (P : problem) (x : sample).
Notation s := (p_settings P).
Hypothesis Dim : s_dim s = 2%nat \/ s_dim s = 3%nat.
Hypothesis X : sample_of P x.

Lemma convection_ok : succeeds (setup_convection P x) <-> s_dim s = 2%nat \/ s_riemann s = LaxFriedrich \/ s_riemann s = HLL.
Proof.
  destruct X as (LU & LUh & Ln & _). destruct (unknown_fields s _ LU) as (V & HV & FV). destruct (unknown_fields s _ LUh) as (W & HW & FW).
  unfold setup_convection, get_convective_numerical_flux. rewrite HV, HW. cbn [bind].
  destruct (convective_flux_ok s V FV) as [f Hf], (convective_flux_ok s W FW) as [g Hg]. rewrite Hf, Hg. cbn [bind].
  rewrite <- (stabilisation_ok s W (x_n x) FW Ln). destruct (get_convective_stabilisation_matrix s false W (x_n x)) as [t|e]; cbn [bind].
  - split; intros _; apply succeeds_ok.
  - split; intros H; destruct (succeeds_err _ H).
Qed.

Lemma diffusion_and_mixed :
  (s_law s = Inviscid <-> p_mixed P = MInactive) ->
  (succeeds (setup_diffusion P x) /\ succeeds (setup_mixed P x) <->
   s_law s = Inviscid \/ p_mixed P = MStrainHeat /\ s_dim s = 2%nat /\ law_works s).
Proof.
  intros M. destruct X as (LU & LUh & Ln & _ & _ & _ & LQ). destruct (unknown_fields s _ LU) as (V & HV & FV). destruct (unknown_fields s _ LUh) as (W & HW & FW).
  unfold setup_diffusion, get_diffusive_numerical_flux, is_inviscid. destruct (s_law s) eqn:El.
  - rewrite (proj1 M eq_refl). cbn [setup_mixed]. unfold setup_mixed. rewrite (proj1 M eq_refl). split; [auto|]. intros _. split; apply succeeds_ok.
  - assert (K : s_law s <> Inviscid) by congruence. rewrite HV, HW. cbn [bind]. unfold mixed_fields, setup_mixed. destruct (p_mixed P) eqn:Ep.
    + discriminate (proj2 M eq_refl).
    + unfold strain_heat_fields. destruct Dim as [D|D]; rewrite D in *; cbn [Nat.mul Nat.add Nat.sub Nat.eqb] in *.
      * destruct (x_Q x) as [|q0 [|q1 [|q2 [|q3 [|q4 [|q5 Q]]]]]] eqn:EQ; try discriminate LQ. cbn [firstn skipn symmetric_matrix bind].
        set (q := mk_grads _ _ _ _ _ _ _ _ _ _ _ _ _).
        assert (Q1 : succeeds (get_diffusive_flux s false V q) <-> law_works s).
        { rewrite (diffusive_flux_ok s V ltac:(rewrite D; exact FV)). split; [tauto|]. intros L. split; [exact L|]. split; [eexists; reflexivity|discriminate]. }
        assert (Q2 : succeeds (get_diffusive_flux s false W q) <-> law_works s).
        { rewrite (diffusive_flux_ok s W ltac:(rewrite D; exact FW)). split; [tauto|]. intros L. split; [exact L|]. split; [eexists; reflexivity|discriminate]. }
        split.
        { intros [H _]. right. split; [reflexivity|]. split; [reflexivity|]. apply Q1. apply succeeds_bind in H as (a & E & _). exists a. exact E. }
        { intros [H|(_ & _ & L)]; [discriminate H|]. split.
          - destruct (proj2 Q1 L) as [a ->]. cbn [bind]. destruct (diffusive_stabilisation_ok s W ltac:(rewrite D; exact FW) L) as [t ->]. cbn [bind].
            destruct (proj2 Q2 L) as [b ->]. apply succeeds_ok.
          - unfold velocity_and_temperature, mixed_parts, strain_heat_fields. rewrite HV, HW. cbn [bind].
            destruct FV as (r1 & u1 & m1 & p1 & T1 & E1 & i1 & k1 & c1 & -> & _), FW as (r2 & u2 & m2 & p2 & T2 & E2 & i2 & k2 & c2 & -> & _). cbn [f_u f_T bind].
            rewrite D. eexists. reflexivity. }
      * split; [intros [_ H]; destruct (succeeds_err _ H)|]. intros [H|(_ & H & _)]; discriminate H.
    + cbn [bind]. split; [|intros [H|(H & _)]; discriminate H]. intros [H _]. exfalso. apply succeeds_bind in H as (a & E & _).
      assert (Z : succeeds (get_diffusive_flux s false V (gradient_fields s (map (fun i => firstn (s_dim s) (skipn (i * s_dim s) (x_Q x))) (seq 0 (s_dim s + 2)))))) by (exists a; exact E).
      apply (diffusive_flux_ok s V FV) in Z. destruct Z as (_ & Z & _). destruct (succeeds_err _ Z).
  - assert (K : s_law s <> Inviscid) by congruence. rewrite HV, HW. cbn [bind]. unfold mixed_fields, setup_mixed. destruct (p_mixed P) eqn:Ep.
    + discriminate (proj2 M eq_refl).
    + unfold strain_heat_fields. destruct Dim as [D|D]; rewrite D in *; cbn [Nat.mul Nat.add Nat.sub Nat.eqb] in *.
      * destruct (x_Q x) as [|q0 [|q1 [|q2 [|q3 [|q4 [|q5 Q]]]]]] eqn:EQ; try discriminate LQ. cbn [firstn skipn symmetric_matrix bind].
        set (q := mk_grads _ _ _ _ _ _ _ _ _ _ _ _ _).
        assert (Q1 : succeeds (get_diffusive_flux s false V q) <-> law_works s).
        { rewrite (diffusive_flux_ok s V ltac:(rewrite D; exact FV)). split; [tauto|]. intros L. split; [exact L|]. split; [eexists; reflexivity|discriminate]. }
        assert (Q2 : succeeds (get_diffusive_flux s false W q) <-> law_works s).
        { rewrite (diffusive_flux_ok s W ltac:(rewrite D; exact FW)). split; [tauto|]. intros L. split; [exact L|]. split; [eexists; reflexivity|discriminate]. }
        split.
        { intros [H _]. right. split; [reflexivity|]. split; [reflexivity|]. apply Q1. apply succeeds_bind in H as (a & E & _). exists a. exact E. }
        { intros [H|(_ & _ & L)]; [discriminate H|]. split.
          - destruct (proj2 Q1 L) as [a ->]. cbn [bind]. destruct (diffusive_stabilisation_ok s W ltac:(rewrite D; exact FW) L) as [t ->]. cbn [bind].
            destruct (proj2 Q2 L) as [b ->]. apply succeeds_ok.
          - unfold velocity_and_temperature, mixed_parts, strain_heat_fields. rewrite HV, HW. cbn [bind].
            destruct FV as (r1 & u1 & m1 & p1 & T1 & E1 & i1 & k1 & c1 & -> & _), FW as (r2 & u2 & m2 & p2 & T2 & E2 & i2 & k2 & c2 & -> & _). cbn [f_u f_T bind].
            rewrite D. eexists. reflexivity. }
      * split; [intros [_ H]; destruct (succeeds_err _ H)|]. intros [H|(_ & H & _)]; discriminate H.
    + cbn [bind]. split; [|intros [H|(H & _)]; discriminate H]. intros [H _]. exfalso. apply succeeds_bind in H as (a & E & _).
      assert (Z : succeeds (get_diffusive_flux s false V (gradient_fields s (map (fun i => firstn (s_dim s) (skipn (i * s_dim s) (x_Q x))) (seq 0 (s_dim s + 2)))))) by (exists a; exact E).
      apply (diffusive_flux_ok s V FV) in Z. destruct Z as (_ & Z & _). destruct (succeeds_err _ Z).
Qed.
End Equations.

(** ** Boundary conditions *)

Lemma read_fields_ok g f : read_fields g = Ok f <-> provides g f.
Proof.
  unfold provides. destruct g as [|h|h]; cbn.
  - split; [discriminate|intros [H|H]; discriminate H].
  - split; [intros H; injection H as <-; auto|intros [H|H]; [injection H as <-; reflexivity|discriminate H]].
  - split; [intros H; injection H as <-; auto|intros [H|H]; [discriminate H|injection H as <-; reflexivity]].
Qed.

Lemma read_container_ok g f : read_container g = Ok f <-> g = Fields f.
Proof. destruct g as [|h|h]; cbn; split; intros H; try discriminate H; injection H as <-; reflexivity. Qed.

(** The number of values of the relaxation factor in two dimensions. *)
Lemma factor_values v : usable_factor v <-> exists C, relaxation_values 2 (relaxation_factor v) = Ok C /\ length C = 4%nat.
Proof.
  assert (Seq : forall l, (5 <= length l)%nat <-> exists C, relaxation_values 2 (Factors (combine characteristic_names l)) = Ok C /\ length C = 4%nat).
  { intros l. destruct l as [|a [|b [|e [|g [|h l]]]]]; cbn.
    1-5: split; [lia|]; intros (C & H & L); try discriminate H; injection H as <-; discriminate L.
    split; [|lia]. intros _. eexists. split; reflexivity. }
  destruct v as [y|l|l|]; cbn [usable_factor relaxation_factor].
  - split; [|trivial]. intros _. eexists. split; reflexivity.
  - apply Seq.
  - rewrite <- Seq, map_length. reflexivity.
  - split; [contradiction|]. intros (C & H & _). discriminate H.
Qed.

Lemma factor_at_most v C : relaxation_values 2 (relaxation_factor v) = Ok C -> (length C <= 4)%nat.
Proof.
  assert (Seq : forall l, relaxation_values 2 (Factors (combine characteristic_names l)) = Ok C -> (length C <= 4)%nat).
  { intros l. destruct l as [|a [|b [|e [|g [|h l]]]]]; cbn; intros H; try discriminate H; injection H as <-; cbn; lia. }
  destruct v as [y|l|l|]; cbn [relaxation_factor]; [|apply Seq|apply Seq|discriminate]. cbn. intros H. injection H as <-. cbn. lia.
Qed.

Lemma diagonal_rows l : rows (diagonal l) = length l.
Proof. reflexivity. Qed.

Lemma kind_cbc c : is_kind c "GRCBC" = true \/ is_kind c "NSCBC" = true -> is_kind c "CBC" = true.
Proof.
  destruct c as [i cc]. unfold is_kind. cbn [c_class]. intros [I|I]; apply subclass_spec, isa_members in I; vm_compute in I;
    repeat destruct I as [I|I]; try contradiction; subst cc; vm_compute; reflexivity.
Qed.

Lemma kind_psponge c : is_kind c "PSpongeLayer" = true -> is_kind c "SpongeLayer" = true.
Proof.
  destruct c as [i cc]. unfold is_kind. cbn [c_class]. intros I; apply subclass_spec, isa_members in I; vm_compute in I;
    repeat destruct I as [I|I]; try contradiction; subst cc; vm_compute; reflexivity.
Qed.

Section Boundary.
Variables (P : problem) (x : sample) (c : cond).
Notation s := (p_settings P).
Notation o := (p_options P c).
Hypothesis Dim : s_dim s = 2%nat \/ s_dim s = 3%nat.
Hypothesis X : sample_of P x.
Hypothesis Physics : physics_ready P.

Lemma setup_farfield_ok : succeeds (setup_farfield P x o) <-> s_dim s = 2%nat /\ exists f, provides (o_fields o) f /\ complete (s_dim s) f.
Proof.
  destruct X as (LU & LUh & Ln & _). destruct (unknown_fields s _ LUh) as (W & HW & FW).
  unfold setup_farfield. rewrite succeeds_bind. split.
  - intros (f & Hf & H). apply read_fields_ok in Hf. apply succeeds_bind in H as (v & Hv & H). apply succeeds_bind in H as (r & Hr & H). apply fits_succeeds in H.
    split; [|exists f; split; [exact Hf|apply complete_vector; exists v; split; assumption]].
    destruct (Nat.eq_dec (s_dim s) 2) as [D|D]; [exact D|]. exfalso. unfold farfield_residual in Hr. rewrite HW, Hv in Hr. cbn [bind] in Hr. destruct (o_identity o).
    + rewrite (proj2 (conservative_identity s W (x_n x) FW Ln Incoming (or_introl eq_refl)) D) in Hr. discriminate Hr.
    + rewrite (proj2 (conservative_jacobian s W (x_n x) FW Ln Incoming ltac:(discriminate)) D) in Hr. discriminate Hr.
  - intros (D & f & Hf & C). exists f. split; [apply read_fields_ok, Hf|]. apply complete_vector in C as (v & Hv & Lv). rewrite Hv. cbn [bind].
    unfold farfield_residual. rewrite HW, Hv. cbn [bind]. destruct (o_identity o).
    + destruct (proj1 (conservative_identity s W (x_n x) FW Ln Incoming (or_introl eq_refl)) D) as [a ->]. cbn [bind].
      destruct (proj1 (conservative_identity s W (x_n x) FW Ln Outgoing (or_intror eq_refl)) D) as [b ->]. cbn [bind]. apply fits_succeeds, Lv.
    + destruct (proj1 (conservative_jacobian s W (x_n x) FW Ln Incoming ltac:(discriminate)) D) as [a ->]. cbn [bind].
      destruct (proj1 (conservative_jacobian s W (x_n x) FW Ln Outgoing ltac:(discriminate)) D) as [b ->]. cbn [bind]. apply fits_succeeds, Lv.
Qed.

Lemma setup_outflow_ok : succeeds (setup_outflow P x o) <-> exists f, provides (o_fields o) f /\ f_p f <> None.
Proof.
  destruct X as (LU & _). destruct (unknown_fields s _ LU) as (V & HV & FV).
  unfold setup_outflow. rewrite succeeds_bind. split.
  - intros (f & Hf & H). apply read_fields_ok in Hf. exists f. split; [exact Hf|]. destruct (f_p f); [discriminate|destruct (succeeds_err _ H)].
  - intros (f & Hf & H). exists f. split; [apply read_fields_ok, Hf|]. destruct (f_p f) as [p|]; [|contradiction].
    unfold outflow_residual, outflow_state. rewrite HV. cbn [bind]. destruct FV as (rho & u & m & q & T & E & i & k & a & -> & _). eexists. reflexivity.
Qed.

Lemma setup_isothermal_ok : succeeds (setup_isothermal P x o) <-> exists f, provides (o_fields o) f /\ f_T f <> None.
Proof.
  destruct X as (LU & _). destruct (unknown_fields s _ LU) as (V & HV & FV).
  unfold setup_isothermal. rewrite succeeds_bind. split.
  - intros (f & Hf & H). apply read_fields_ok in Hf. exists f. split; [exact Hf|]. destruct (f_T f); [discriminate|destruct (succeeds_err _ H)].
  - intros (f & Hf & H). exists f. split; [apply read_fields_ok, Hf|]. destruct (f_T f) as [p|]; [|contradiction].
    unfold isothermal_wall_residual, isothermal_wall_state. rewrite HV. cbn [bind]. destruct FV as (rho & u & m & q & T & E & i & k & a & -> & _). eexists. reflexivity.
Qed.

Lemma inviscid_wall_ok : succeeds (inviscid_wall_residual s (x_U x) (x_Uhat x) (x_n x)).
Proof.
  destruct X as (LU & _). destruct (unknown_fields s _ LU) as (V & HV & FV).
  unfold inviscid_wall_residual, inviscid_wall_state. rewrite HV. cbn [bind]. destruct FV as (rho & u & m & q & T & E & i & k & a & -> & _). eexists. reflexivity.
Qed.

Lemma cbc_state_ok t f : target_fields (s_dim s) t f <-> exists v, cbc_state s t f (x_U x) = Ok v /\ length v = (s_dim s + 2)%nat.
Proof.
  destruct X as (LU & _). destruct (unknown_fields s _ LU) as (V & HV & FV). unfold cbc_state. rewrite HV. cbn [bind].
  destruct FV as (rho & u & m & q & T & E & i & k & a & -> & Lu & Lm). destruct t; cbn [target_fields f_rho f_rho_u f_rho_Ek f_p f_T].
  - apply complete_vector.
  - destruct (f_p f) as [p|].
    + split; [|intros _; discriminate]. intros _. eexists. split; [reflexivity|]. cbn [length]. rewrite app_length. cbn [length]. lia.
    + split; [intros H; contradiction|]. intros (v & H & _). discriminate H.
  - destruct (f_rho f) as [r|]; [destruct (f_rho_u f) as [m'|]; [destruct (f_rho_Ek f) as [k'|]|]|].
    + split.
      * intros (_ & _ & m0 & H & L). injection H as <-. eexists. split; [reflexivity|]. cbn [length]. rewrite app_length. cbn [length]. lia.
      * intros (v & H & L). split; [discriminate|]. split; [discriminate|]. exists m'. split; [reflexivity|].
        assert (v = r :: m' ++ [match energy s (mk_flow (Some r) None (Some m') (Some q) None None None None None (Some k') None None None None) with Ok e => e | Err _ => 0 end]) as ->.
        { apply ok_inj. symmetry. rewrite <- H. reflexivity. }
        cbn [length] in L. rewrite app_length in L. cbn [length] in L. lia.
    + split; [intros (_ & H & _); contradiction|]. intros (v & H & _). discriminate H.
    + split; [intros (_ & _ & m0 & H & _); discriminate H|]. intros (v & H & _). discriminate H.
    + split; [intros (H & _); contradiction|]. intros (v & H & _). discriminate H.
  - unfold isentropic_density, eos_isentropic_density. cbn [f_p f_T]. destruct (f_rho f) as [r|].
    2: { split; [intros (H & _); contradiction|]. intros (v & H & _). cbn in H. discriminate H. }
    assert (K : (f_p f <> None \/ f_T f <> None) -> exists rr, equation (Ok match f_p f with Some p0 => Some (r * Rpower (q / p0) (1 / s_gamma s)) | None =>
        match f_T f with Some T0 => Some (r * Rpower (T / T0) (1 / (s_gamma s - 1))) | None => None end end) = Ok rr).
    { intros K. destruct (f_p f); [eexists; reflexivity|]. destruct (f_T f); [eexists; reflexivity|]. destruct K; contradiction. }
    split.
    + intros (_ & N & u' & Hu & L). destruct (K N) as [rr Hr]. rewrite Hr, Hu. cbn [bind]. eexists. split; [reflexivity|].
      cbn [length]. rewrite app_length. unfold vscale. rewrite map_length. cbn [length]. lia.
    + intros (v & H & L). split; [discriminate|]. apply bind_ok in H as (rr & Hr & H). split.
      * destruct (f_p f); [left; discriminate|]. destruct (f_T f); [right; discriminate|discriminate Hr].
      * destruct (f_u f) as [u'|]; [|discriminate H]. exists u'. split; [reflexivity|].
        apply bind_ok in H as (k' & Hk & H). apply bind_ok in H as (r' & Hr' & H). apply bind_ok in H as (m' & Hm' & H). apply bind_ok in H as (e' & He' & H).
        apply ok_inj in H. subst v. cbn in Hm'. apply ok_inj in Hm'. subst m'. cbn [length] in L. rewrite app_length in L. unfold vscale in L. rewrite map_length in L. cbn [length] in L. lia.
Qed.

Lemma viscous_terms_ok t : s_dim s = 2%nat -> succeeds (cbc_viscous_terms s (p_mixed P) t (x_U x) (x_Q x) (x_dU x) (x_dQ x) (x_n x) (x_t x)).
Proof.
  intros D. unfold cbc_viscous_terms. destruct (p_mixed P) eqn:Ep; try apply succeeds_ok.
  destruct Physics as [[[_ H]|(NI & _ & _ & Ma)] _]; [congruence|]. assert (W : law_works s) by (split; assumption).
  destruct X as (LU & LUh & Ln & Lt & _ & _ & LQ). rewrite Ep, D in LQ. cbn [Nat.mul Nat.add Nat.sub] in LQ. destruct (unknown_fields s _ LU) as (V & HV & FV).
  destruct (x_Q x) as [|q0 [|q1 [|q2 [|q3 [|q4 [|q5 Q]]]]]] eqn:EQ; try discriminate LQ.
  assert (HQ : exists q, strain_heat_fields s [q0; q1; q2; q3; q4] = Ok q /\ exists e, g_eps q = Some e).
  { unfold strain_heat_fields. rewrite D. eexists. split; [reflexivity|]. eexists. reflexivity. }
  destruct HQ as (q & HQ & e & He).
  destruct (numbers_ok s (proj1 W)) as [[re Hre] [pr Hpr]]. destruct (proj2 (viscosity_ok s V FV) W) as [mu Hmu].
  assert (HT : succeeds (deviatoric_stress_tensor s V q)).
  { unfold deviatoric_stress_tensor, strain_rate_tensor. rewrite Hre, Hmu, He. cbn. apply succeeds_ok. }
  destruct HT as [tau Htau].
  assert (HR : succeeds (density s V) /\ exists u0 u1, f_u V = Some [u0; u1]).
  { destruct FV as (rho & u & m & p & T & E & i & k & a & -> & Lu & _). split; [eexists; reflexivity|]. rewrite D in Lu.
    destruct u as [|u0 [|u1 [|u2 u]]]; try discriminate Lu. exists u0, u1. reflexivity. }
  destruct HR as ([rho Hrho] & u0 & u1 & Hu).
  unfold strain_heat_viscous_terms, conservative_diffusive_jacobian, mixed_diffusive_jacobian, conservative_diffusive_jacobian_x, conservative_diffusive_jacobian_y,
    mixed_diffusive_jacobian_x, mixed_diffusive_jacobian_y. rewrite D. cbn [Nat.eqb]. rewrite HV. cbn [bind]. rewrite HQ. cbn [bind].
  rewrite Hrho, Htau, Hre, Hpr, Hmu, Hu. cbn [bind unpack2]. destruct t; apply succeeds_ok.
Qed.

Lemma relaxation_rows k v step a : s_dim s = 2%nat ->
  (usable_factor v <-> exists D, relaxation_matrix s k (relaxation_factor v) step a = Ok D /\ rows D = 4%nat).
Proof.
  intros D. rewrite factor_values. unfold relaxation_matrix, grcbc_relaxation_matrix, nscbc_relaxation_matrix. rewrite D.
  destruct k as [|len]; destruct (relaxation_values 2 (relaxation_factor v)) as [C|e] eqn:EC; cbn [bind].
  - split; [intros (C' & H & L); injection H as <-; eexists; split; [reflexivity|exact L]|]. intros (M & H & L). injection H as <-. exists C. split; [reflexivity|exact L].
  - split; [intros (C' & H & _)|intros (C' & H & _)]; discriminate H.
  - assert (L4 : forall E, length E = 4%nat -> (length (map (fun fe : R * R => fst fe * snd fe / len) (combine C E)) = 4%nat <-> (4 <= length C)%nat)).
    { intros E L. rewrite map_length, combine_length, L. lia. }
    specialize (L4 (a * (1 - s_mach s ^ 2) :: repeat a 2 ++ [a * (1 - s_mach s ^ 2)]) eq_refl).
    split.
    + intros (C' & H & L). injection H as <-. eexists. split; [reflexivity|]. rewrite diagonal_rows. apply L4. lia.
    + intros (M & H & L). injection H as <-. rewrite diagonal_rows in L. apply L4 in L. exists C. split; [reflexivity|]. apply factor_at_most in EC. lia.
  - split; [intros (C' & H & _)|intros (C' & H & _)]; discriminate H.
Qed.

Lemma setup_cbc_ok : succeeds (setup_cbc P x c o) <->
  s_dim s = 2%nat /\ p_transient P = true /\ (is_kind c "NSCBC" = true \/ is_kind c "GRCBC" = true) /\
  exists f, provides (o_fields o) f /\ target_fields (s_dim s) (o_target o) f /\ usable_factor (o_factor o).
Proof.
  pose proof X as (LU & LUh & Ln & Lt & _). destruct (unknown_fields s _ LUh) as (W & HW & FW).
  assert (HA : succeeds (speed_of_sound s W)) by (destruct FW as (rho & u & m & p & T & E & i & k & a & -> & _); eexists; reflexivity). destruct HA as [a Ha].
  unfold setup_cbc. destruct (p_transient P); cbn [negb].
  2: { split; [intros H; destruct (succeeds_err _ H)|intros (_ & H & _); discriminate H]. }
  assert (HK : kind_of c o <> None <-> is_kind c "NSCBC" = true \/ is_kind c "GRCBC" = true).
  { unfold kind_of. destruct (is_kind c "NSCBC"), (is_kind c "GRCBC"); split; intros H; auto; try discriminate. destruct H; discriminate. }
  rewrite <- HK. clear HK. rewrite succeeds_bind. split.
  - intros (f & Hf & H). apply read_fields_ok in Hf. apply succeeds_bind in H as (v & Hv & H). rewrite HW in H. cbn [bind] in H. rewrite Ha in H. cbn [bind] in H.
    destruct (kind_of c o) as [k|].
    2: { exfalso. apply succeeds_bind in H as (? & _ & H). apply succeeds_bind in H as (? & _ & H). apply succeeds_bind in H as (? & _ & H). destruct (succeeds_err _ H). }
    apply succeeds_bind in H as (D & HD & H). apply succeeds_bind in H as (M & HM & H).
    assert (D2 : s_dim s = 2%nat).
    { destruct (Nat.eq_dec (s_dim s) 2) as [E|E]; [exact E|]. rewrite (transform_3d s W (x_n x) FW Ln D E) in HM. discriminate HM. }
    destruct (Nat.eqb_spec (rows D) (s_dim s + 2)) as [Er|Er]; [|destruct (succeeds_err _ H)]. cbn [negb] in H. rewrite D2 in Er. cbn in Er.
    apply succeeds_bind in H as (r & _ & H). apply succeeds_bind in H as (z & Hz & _). assert (Lv : length v = (s_dim s + 2)%nat) by (apply fits_succeeds; exists z; exact Hz).
    split; [exact D2|]. split; [reflexivity|]. split; [discriminate|]. exists f. split; [exact Hf|]. split.
    + apply cbc_state_ok. exists v. split; assumption.
    + apply (relaxation_rows k _ (x_step x) a D2). exists D. split; assumption.
  - intros (D2 & _ & K & f & Hf & HT & HU). exists f. split; [apply read_fields_ok, Hf|]. apply cbc_state_ok in HT as (v & Hv & Lv).
    rewrite Hv, HW. cbn [bind]. rewrite Ha. cbn [bind]. destruct (kind_of c o) as [k|]; [|contradiction].
    apply (relaxation_rows k _ (x_step x) a D2) in HU as (D & HD & Er). rewrite HD. cbn [bind].
    destruct (transform_2d s W (x_n x) FW Ln D D2) as [M HM]. rewrite HM. cbn [bind]. rewrite Er. replace (s_dim s + 2)%nat with 4%nat by lia. cbn [Nat.eqb negb].
    assert (RES : forall w, succeeds (cbc_residual s k (o_target o) (relaxation_factor (o_factor o)) (o_beta o) f (x_step x) (x_dt x) (x_old x) (x_U x) (x_Uhat x) (x_slope x) (x_n x) (x_t x) w)).
    { intros w. unfold cbc_residual. rewrite HW, Hv. cbn [bind]. rewrite Ha. cbn [bind]. fold (relaxation_matrix s k (relaxation_factor (o_factor o)) (x_step x) a). rewrite HD. cbn [bind]. rewrite HM. cbn [bind].
      destruct (proj1 (conservative_identity s W (x_n x) FW Ln Incoming (or_introl eq_refl)) D2) as [q1 ->]. cbn [bind].
      destruct (proj1 (conservative_identity s W (x_n x) FW Ln Outgoing (or_intror eq_refl)) D2) as [q2 ->]. cbn [bind].
      destruct (proj1 (conservative_jacobian s W (x_t x) FW Lt Full ltac:(discriminate)) D2) as [q3 ->]. cbn [bind]. apply succeeds_ok. }
    destruct (RES None) as [r ->]. cbn [bind]. rewrite (proj2 (fits_ok s v) Lv). cbn [bind]. destruct (o_viscous o); [|apply succeeds_ok].
    destruct (viscous_terms_ok (o_target o) D2) as [w ->]. cbn [bind]. destruct (RES (Some w)) as [r' ->]. apply succeeds_ok.
Qed.

Lemma setup_boundary_ok : succeeds (setup_boundary P x c) <-> boundary_ready P c.
Proof.
  assert (K : forall b, isa (c_class c) b <-> is_kind c b = true) by (intros b; symmetry; apply subclass_spec).
  assert (T : forall r (f : formulation), succeeds (let* _ := r in Ok (Some f)) <-> @succeeds unit r).
  { intros r f. rewrite succeeds_bind. split; [intros (a & E & _); exists a; exact E|intros [a E]; exists a; split; [exact E|apply succeeds_ok]]. }
  assert (Cases : forall b, is_kind c b = true -> In (c_class c) (b :: filter (fun y => subclass y b) (dkeys parents))).
  { intros b H. apply kind_members in H. destruct H as [H|H]; [left; symmetry; exact H|right; exact H]. }
  unfold setup_boundary. split.
  - destruct (is_kind c "FarField") eqn:E1.
    { rewrite T, setup_farfield_ok. intros (D & f & Hf & C). rewrite D in C. eapply ready_farfield; try eassumption. apply K, E1. }
    destruct (is_kind c "CBC") eqn:E2.
    { rewrite T, setup_cbc_ok. intros (D & Tr & Kd & f & Hf & C & U). rewrite D in C. eapply ready_cbc; try eassumption. rewrite !K. destruct Kd as [Kd|Kd]; [right|left]; exact Kd. }
    destruct (is_kind c "Outflow") eqn:E3.
    { rewrite T, setup_outflow_ok. intros (f & Hf & C). eapply ready_outflow; try eassumption. apply K, E3. }
    destruct (is_kind c "InviscidWall") eqn:E4; cbn [orb].
    { intros _. apply ready_wall. rewrite !K. left. exact E4. }
    destruct (is_kind c "Symmetry") eqn:E5; cbn [orb].
    { intros _. apply ready_wall. rewrite !K. right. exact E5. }
    destruct (is_kind c "IsothermalWall") eqn:E6.
    { rewrite T, setup_isothermal_ok. intros (f & Hf & C). eapply ready_isothermal; try eassumption. apply K, E6. }
    destruct (is_kind c "Periodic") eqn:E7.
    { intros _. apply ready_periodic. apply K, E7. }
    destruct (is_kind c "AdiabaticWall").
    { rewrite T. intros H. exfalso. destruct X as (_ & LUh & _). destruct (c50_adiabatic_wall s (p_mixed P) (x_U x) (x_Uhat x) (x_Q x) (x_n x) LUh) as (_ & _ & _ & e & He).
      rewrite He in H. destruct (succeeds_err _ H). }
    intros H. destruct (succeeds_err _ H).
  - assert (Cls : forall b b', is_kind c b = true -> forallb (fun y => negb (subclass y b')) (b :: filter (fun y => subclass y b) (dkeys parents)) = true -> is_kind c b' = false).
    { intros b b' H F. apply Cases in H. rewrite forallb_forall in F. specialize (F _ H). apply negb_true_iff in F. exact F. }
    intros H. destruct H as [f I D G C|f I D Tr G C U|f I G C|I|f I G C|I]; rewrite !K in I.
    + rewrite I, T, setup_farfield_ok. split; [exact D|]. exists f. rewrite D. split; assumption.
    + assert (IC : is_kind c "CBC" = true).
      { apply kind_cbc, I. }
      rewrite (Cls "CBC" "FarField" IC eq_refl), IC, T, setup_cbc_ok. split; [exact D|]. split; [exact Tr|]. split; [destruct I as [I|I]; [right|left]; exact I|]. exists f. rewrite D. split; [exact G|]. split; assumption.
    + rewrite (Cls _ "FarField" I eq_refl), (Cls _ "CBC" I eq_refl), I, T, setup_outflow_ok. exists f. split; assumption.
    + destruct inviscid_wall_ok as [r Hr]. destruct I as [I|I];
        rewrite (Cls _ "FarField" I eq_refl), (Cls _ "CBC" I eq_refl), (Cls _ "Outflow" I eq_refl), I, ?orb_true_r; cbn [orb]; rewrite T, Hr; apply succeeds_ok.
    + rewrite (Cls _ "FarField" I eq_refl), (Cls _ "CBC" I eq_refl), (Cls _ "Outflow" I eq_refl), (Cls _ "InviscidWall" I eq_refl), (Cls _ "Symmetry" I eq_refl), I. cbn [orb].
      rewrite T, setup_isothermal_ok. exists f. split; assumption.
    + rewrite (Cls _ "FarField" I eq_refl), (Cls _ "CBC" I eq_refl), (Cls _ "Outflow" I eq_refl), (Cls _ "InviscidWall" I eq_refl), (Cls _ "Symmetry" I eq_refl), (Cls _ "IsothermalWall" I eq_refl), I. cbn [orb].
      apply succeeds_ok.
Qed.

Lemma setup_sponge_ok : succeeds (setup_sponge P x o) <-> exists f, o_target_state o = Fields f /\ complete (s_dim s) f /\ o_function o <> None.
Proof.
  unfold setup_sponge. rewrite succeeds_bind. split.
  - intros (f & Hf & H). apply read_container_ok in Hf. apply succeeds_bind in H as (v & Hv & H). exists f. split; [exact Hf|].
    destruct (o_function o) as [w|]; [|destruct (succeeds_err _ H)]. split; [|discriminate]. apply succeeds_bind in H as (r & _ & H). apply fits_succeeds in H.
    apply complete_vector. exists v. split; assumption.
  - intros (f & Hf & C & W). exists f. split; [apply read_container_ok, Hf|]. apply complete_vector in C as (v & Hv & Lv). rewrite Hv. cbn [bind].
    destruct (o_function o) as [w|]; [|contradiction]. unfold sponge_residual. rewrite Hv. cbn [bind]. apply fits_succeeds, Lv.
Qed.

Lemma setup_domain_ok : succeeds (setup_domain P x c) <-> domain_ready P c.
Proof.
  assert (K : forall b, isa (c_class c) b <-> is_kind c b = true) by (intros b; symmetry; apply subclass_spec).
  assert (T : forall r (f : formulation), succeeds (let* _ := r in Ok (Some f)) <-> @succeeds unit r).
  { intros r f. rewrite succeeds_bind. split; [intros (a & E & _); exists a; exact E|intros [a E]; exists a; split; [exact E|apply succeeds_ok]]. }
  assert (Cases : forall b, is_kind c b = true -> In (c_class c) (b :: filter (fun y => subclass y b) (dkeys parents))).
  { intros b H. apply kind_members in H. destruct H as [H|H]; [left; symmetry; exact H|right; exact H]. }
  assert (Cls : forall b b', is_kind c b = true -> forallb (fun y => negb (subclass y b')) (b :: filter (fun y => subclass y b) (dkeys parents)) = true -> is_kind c b' = false).
  { intros b b' H F. apply Cases in H. rewrite forallb_forall in F. specialize (F _ H). apply negb_true_iff in F. exact F. }
  unfold setup_domain. split.
  - destruct (is_kind c "SpongeLayer") eqn:E1.
    { rewrite T, setup_sponge_ok. intros (f & Hf & C & W). eapply ready_sponge; try eassumption. apply K, E1. }
    destruct (is_kind c "PSpongeLayer") eqn:E2.
    { apply kind_psponge in E2. congruence. }
    destruct (is_kind c "Initial") eqn:E3.
    { intros _. apply ready_initial. apply K, E3. }
    intros H. destruct (succeeds_err _ H).
  - intros H. destruct H as [f I G C W|I]; rewrite !K in I.
    + rewrite I, T, setup_sponge_ok. exists f. split; [exact G|]. split; assumption.
    + rewrite (Cls _ "SpongeLayer" I eq_refl), (Cls _ "PSpongeLayer" I eq_refl), I. apply succeeds_ok.
Qed.
End Boundary.

(** ** The stages *)

Lemma add_terms_succeeds term items blf : succeeds (add_terms term items blf) <-> forall rs c, In (rs, c) items -> succeeds (term c).
Proof.
  split.
  - intros [v H] rs c I. destruct (term c) as [t|e] eqn:E; [apply succeeds_ok|]. destruct (add_terms_err term items blf rs c e I E) as [e' H']. congruence.
  - intros H. destruct (add_terms_ok term items blf H) as [v Hv]. exists v. exact Hv.
Qed.

Lemma psponge_orders_ok n op items : succeeds (psponge_orders n op items) <-> forall rs c, In (rs, c) items -> (o_high_order (op c) <= n)%nat.
Proof.
  induction items as [|[rs c] items IH]; cbn [psponge_orders].
  - split; [intros _ rs c []|intros _; apply succeeds_ok].
  - destruct (Nat.ltb_spec n (o_high_order (op c))).
    + split; [intros H'; destruct (succeeds_err _ H')|]. intros H'. specialize (H' rs c (or_introl eq_refl)). lia.
    + rewrite IH. split.
      * intros H' rs' c' [E|I]; [injection E as <- <-; lia|apply (H' rs' c' I)].
      * intros H' rs' c' I. apply (H' rs' c'). right. exact I.
Qed.

Lemma initial_values_ok P items : succeeds (initial_values P items) <-> forall rs c, In (rs, c) items -> initial_ready P c.
Proof.
  induction items as [|[rs c] items IH]; cbn [initial_values].
  - split; [intros _ rs c []|intros _; apply succeeds_ok].
  - rewrite succeeds_bind. split.
    + intros (f & Hf & H). apply read_container_ok in Hf. apply succeeds_bind in H as (v & Hv & H). apply succeeds_bind in H as (z & Hz & H).
      intros rs' c' [E|I].
      * injection E as <- <-. exists f. split; [exact Hf|]. apply complete_vector. exists v. split; [exact Hv|]. apply fits_succeeds. exists z. exact Hz.
      * revert I. apply IH, H.
    + intros H. destruct (H rs c (or_introl eq_refl)) as (f & Hf & C). exists f. split; [apply read_container_ok, Hf|]. apply complete_vector in C as (v & Hv & Lv).
      rewrite Hv. cbn [bind]. rewrite (proj2 (fits_ok _ _) Lv). cbn [bind]. apply IH. intros rs' c' I. apply (H rs' c'). right. exact I.
Qed.
