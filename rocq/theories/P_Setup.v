(** C65: setting up a problem succeeds exactly for the supported problems, and builds what was configured. *)
From Coq Require Import Reals String List Arith Bool Lra Lia.
From Verif Require Import Base Dict M_Bla M_Flow M_Formulation M_Mixed M_Viscous M_Conditions M_Setup S_Flow S_Conditions S_Setup
  L_Flow L_Conditions P_Eos P_Jacobian P_Boundary P_Conditions L_Setup.
Import ListNotations.
Open Scope R_scope.
Open Scope string_scope.
Open Scope list_scope.

Lemma effect_items k order (Q : cond -> Prop) : (forall c, in_effect k order c -> Q c) <-> forall p c, In (p, c) (to_pattern k order) -> Q c.
Proof. unfold in_effect. split; [intros H p c I; apply H; exists p; exact I|intros H c [p I]; apply (H p c I)]. Qed.

Lemma spaces_ok P is : s_dim (p_settings P) = 2%nat \/ s_dim (p_settings P) = 3%nat ->
  (succeeds (hdg_spaces P is) <-> forall c, in_effect (p_dcs P) (i_psponge is) c -> layer_ready P c).
Proof.
  intros Dim. rewrite effect_items. unfold hdg_spaces, layer_ready. set (items := to_pattern (p_dcs P) (i_psponge is)).
  pose proof (psponge_orders_ok (p_order P) (p_options P) items) as PO. rewrite succeeds_bind. split.
  - intros (a & Ha & H) p c I. split; [|apply (proj1 PO (ex_intro _ a Ha) p c I)]. apply succeeds_bind in H as (b & Hb & _).
    destruct items as [|i0 items]; [contradiction|]. destruct (Nat.eqb_spec (s_dim (p_settings P)) 2) as [D|D]; [exact D|discriminate Hb].
  - intros H. destruct (proj2 PO (fun p c I => proj2 (H p c I))) as [a Ha]. exists a. split; [exact Ha|].
    destruct items as [|[p c] items]; [apply succeeds_ok|]. destruct (H p c (or_introl eq_refl)) as [D _]. rewrite D. cbn [Nat.eqb]. rewrite Ha. apply succeeds_ok.
Qed.

Lemma spaces_value P is fes : hdg_spaces P is = Ok fes -> fes = [("U", s_dim (p_settings P) + 2); ("Uhat", s_dim (p_settings P) + 2)]%nat.
Proof. intros H. unfold hdg_spaces in H. apply bind_ok in H as (a & _ & H). apply bind_ok in H as (b & _ & H). apply ok_inj in H. congruence. Qed.

Lemma law_cases s : is_inviscid s = true <-> s_law s = Inviscid.
Proof. unfold is_inviscid. destruct (s_law s); split; congruence. Qed.

Definition mixed_entry (P : problem) : dict nat :=
  match p_mixed P with MInactive => [] | MStrainHeat => [("Q", 4 * s_dim (p_settings P) - 3)] | MGradient => [("Q", s_dim (p_settings P) * (s_dim (p_settings P) + 2))] end%nat.

Lemma mixed_ok P is : succeeds (hdg_spaces P is) ->
  let U := [("U", s_dim (p_settings P) + 2); ("Uhat", s_dim (p_settings P) + 2)]%nat in
  (succeeds (mixed_spaces P is U) <-> (s_law (p_settings P) = Inviscid <-> p_mixed P = MInactive)) /\
  (forall fes, mixed_spaces P is U = Ok fes -> fes = U ++ mixed_entry P).
Proof.
  intros [f Hf]. unfold hdg_spaces in Hf. apply bind_ok in Hf as ([] & Ha & _). unfold mixed_spaces, mixed_entry.
  pose proof (law_cases (p_settings P)) as LC. destruct (p_mixed P), (is_inviscid (p_settings P)); cbn [negb]; rewrite ?Ha; cbn [bind]; split; try (intros fes H; apply ok_inj in H; subst fes; reflexivity);
    try (intros fes H; discriminate H).
  - split; [intros _; tauto|intros _; apply succeeds_ok].
  - split; [intros H; destruct (succeeds_err _ H)|]. intros H. assert (false = true) by tauto. discriminate.
  - split; [intros H; destruct (succeeds_err _ H)|]. intros H. assert (X : MStrainHeat = MInactive) by tauto. discriminate X.
  - split; [|intros _; apply succeeds_ok]. intros _. split; [intros H; apply LC in H; discriminate|discriminate].
  - split; [intros H; destruct (succeeds_err _ H)|]. intros H. assert (X : MGradient = MInactive) by tauto. discriminate X.
  - split; [|intros _; apply succeeds_ok]. intros _. split; [intros H; apply LC in H; discriminate|discriminate].
Qed.

Lemma mesh_ok P : reachable (p_bcs P) -> (succeeds (set_boundary_conditions (p_periodic P) (p_bcs P)) <-> mesh_ready P).
Proof.
  intros W. destruct (c32_periodic_check (p_periodic P) (p_bcs P) W) as [_ H]. unfold mesh_ready. split.
  - intros [[] E]. apply H in E. intros T. destruct E as [E|E]; [congruence|exact E].
  - intros M. exists tt. apply H. destruct (p_periodic P); [right; apply M; reflexivity|left; reflexivity].
Qed.

Lemma time_ok P rest : reachable (p_bcs P) ->
  exists l, time_initialize P (("U", s_dim (p_settings P) + 2)%nat :: ("Uhat", s_dim (p_settings P) + 2)%nat :: rest) = Ok l /\
    (In "U" l <-> p_transient P = true) /\
    (In "Uhat" l <-> p_transient P = true /\ exists r c, carries (p_bcs P) r c /\ isa (c_class c) "CBC") /\
    (forall v, In v l -> v = "U" \/ v = "Uhat").
Proof.
  intros W. unfold time_initialize. destruct (p_transient P).
  - pose proof (c30_has_condition (p_bcs P) (QClass "CBC") W) as (b & -> & Hb). cbn [bind]. destruct b.
    + exists ["U"; "Uhat"]. split; [reflexivity|]. split; [split; [reflexivity|intros _; left; reflexivity]|]. split.
      * split; [intros _; split; [reflexivity|apply Hb; reflexivity]|intros _; right; left; reflexivity].
      * intros v [<-|[<-|[]]]; auto.
    + exists ["U"]. split; [reflexivity|]. split; [split; [reflexivity|intros _; left; reflexivity]|]. split.
      * split; [intros [H|[]]; discriminate H|intros [_ H]; apply Hb in H; discriminate H].
      * intros v [<-|[]]; auto.
  - exists []. split; [reflexivity|]. split; [split; [intros []|discriminate]|]. split; [split; [intros []|intros [H _]; discriminate H]|intros v []].
Qed.

(** Setting up succeeds exactly if everything in effect is supported, whatever the values of the unknowns. *)
Theorem c65_success : forall P is x, s_dim (p_settings P) = 2%nat \/ s_dim (p_settings P) = 3%nat -> reachable (p_bcs P) -> sample_of P x ->
  ((exists b, initialize P is x = Ok b) <-> supported P is).
Proof.
  intros P is x Dim WB X. change (exists b, initialize P is x = Ok b) with (succeeds (initialize P is x)). unfold initialize, supported.
  pose proof (spaces_ok P is Dim) as S1. pose proof (mesh_ok P WB) as S3.
  pose proof (initial_values_ok P (to_pattern (p_dcs P) (i_initial is))) as S5. rewrite <- (effect_items (p_dcs P) (i_initial is) (initial_ready P)) in S5.
  pose proof (convection_ok P x X) as S6. pose proof (diffusion_and_mixed P x Dim X) as S7.
  split.
  - intros H. apply succeeds_bind in H as (fes & H1 & H). pose proof (spaces_value _ _ _ H1) as E. pose proof (ex_intro _ fes H1 : succeeds _) as Q1. subst fes.
    destruct (mixed_ok P is Q1) as [S2 V2]. apply succeeds_bind in H as (fes & H2 & H). specialize (V2 _ H2). subst fes. pose proof (ex_intro _ _ H2 : succeeds _) as Q2. apply S2 in Q2.
    apply succeeds_bind in H as (z & H3 & H). pose proof (ex_intro _ _ H3 : succeeds _) as Q3.
    apply succeeds_bind in H as (l & _ & H). apply succeeds_bind in H as (z5 & H5 & H). pose proof (ex_intro _ _ H5 : succeeds _) as Q5.
    apply succeeds_bind in H as (z6 & H6 & H). pose proof (ex_intro _ _ H6 : succeeds _) as Q6.
    apply succeeds_bind in H as (d & H7 & H). apply succeeds_bind in H as (m & H8 & H).
    assert (PH : physics_ready P).
    { split; [|apply S6, Q6].  assert (Q7 := proj1 (S7 Q2) (conj (ex_intro _ _ H7) (ex_intro _ _ H8))). destruct Q7 as [L|(Mx & D & L1 & L2)].
      - left. split; [exact L|apply Q2, L].
      - right. split; [exact L1|]. split; [exact Mx|]. split; assumption. }
    apply succeeds_bind in H as (t & H9 & H). apply succeeds_bind in H as (t' & H10 & _).
    split; [exact PH|]. split; [apply S3, Q3|]. split; [apply S1, Q1|]. split; [apply S5, Q5|]. split.
    + apply effect_items. intros p c I. apply (setup_boundary_ok P x c Dim X PH). revert p c I. apply (proj1 (add_terms_succeeds _ _ _) (ex_intro _ _ H9)).
    + apply effect_items. intros p c I. apply (setup_domain_ok P x c). revert p c I. apply (proj1 (add_terms_succeeds _ _ _) (ex_intro _ _ H10)).
  - intros (PH & M & LY & IN & BD & DM). apply S1 in LY. pose proof LY as [fes H1]. pose proof (spaces_value _ _ _ H1) as E. subst fes. rewrite H1. cbn [bind].
    destruct (mixed_ok P is LY) as [S2 V2].
    assert (MX : s_law (p_settings P) = Inviscid <-> p_mixed P = MInactive).
    { destruct PH as [[[L Mx]|(L & Mx & _)] _]; rewrite ?L, Mx; [tauto|]. split; [contradiction|discriminate]. }
    destruct (proj2 S2 MX) as [fes H2]. rewrite H2. specialize (V2 _ H2). subst fes. cbn [bind].
    destruct (proj2 S3 M) as [z ->]. cbn [bind]. cbn [app]. destruct (time_ok P (mixed_entry P) WB) as (l & -> & _). cbn [bind].
    destruct (proj2 S5 IN) as [z5 ->]. cbn [bind]. destruct (proj2 S6 (proj2 PH)) as [z6 ->]. cbn [bind].
    assert (Q7 : succeeds (setup_diffusion P x) /\ succeeds (setup_mixed P x)).
    { apply (S7 MX). destruct PH as [[[L _]|(L & Mx & D & La)] _]; [left; exact L|right]. split; [exact Mx|]. split; [exact D|]. split; assumption. }
    destruct Q7 as [[d ->] [m ->]]. cbn [bind].
    assert (Q9 : forall blf, succeeds (add_terms (setup_boundary P x) (to_pattern (p_bcs P) (i_bcs is)) blf)).
    { intros blf. apply add_terms_succeeds. intros p c I. apply (setup_boundary_ok P x c Dim X PH). apply BD. exists p. exact I. }
    assert (Q10 : forall blf, succeeds (add_terms (setup_domain P x) (to_pattern (p_dcs P) (i_dcs is)) blf)).
    { intros blf. apply add_terms_succeeds. intros p c I. apply (setup_domain_ok P x c). apply DM. exists p. exact I. }
    destruct (Q9 []) as [t ->]. cbn [bind]. destruct (Q10 t) as [t' ->]. apply succeeds_ok.
Qed.
Print Assumptions c65_success.

(** Every attached condition is ready: the set-up succeeds for every order in which the sets are traversed. *)
Theorem c65_complete : forall P is x, s_dim (p_settings P) = 2%nat \/ s_dim (p_settings P) = 3%nat -> reachable (p_bcs P) ->
  orders_of P is -> sample_of P x -> all_ready P -> exists b, initialize P is x = Ok b.
Proof.
  intros P is x Dim WB (OB & OD & OP & OI) X (PH & M & B & D). apply (c65_success P is x Dim WB X).
  assert (E : forall k kind order c, iteration_order k kind order -> in_effect k order c -> isa (c_class c) kind /\ exists r, carries k r c).
  { intros k kind order c [_ O] [p I]. apply to_pattern_In in I. apply O, (proj1 I). }
  split; [exact PH|]. split; [exact M|]. split; [|split; [|split]]; intros c I.
  - destruct (E _ _ _ _ OP I) as (K & r & C). apply (D r c C), K.
  - destruct (E _ _ _ _ OI I) as (K & r & C). apply (D r c C), K.
  - destruct (E _ _ _ _ OB I) as (K & r & C). apply (B r c C).
  - destruct (E _ _ _ _ OD I) as (K & r & C). apply (D r c C).
Qed.
Print Assumptions c65_complete.

(** No two conditions are attached to the same regions. *)
Definition separate (k : conditions) : Prop :=
  forall a b r r' rs, carries k r a -> carries k r' b -> attached_to k a rs -> attached_to k b rs -> a = b.

Lemma separate_effect k kind order : reachable k -> (forall r, In r (dkeys (k_data k)) -> ~ has_bar r) -> separate k -> iteration_order k kind order ->
  forall r c, carries k r c -> isa (c_class c) kind -> in_effect k order c.
Proof.
  intros W NB S O r c C K. exists (String.concat "|" (regions_of (k_data k) c)). apply (c31_complete k kind order c _ W O NB K (ex_intro _ r C)).
  - apply attached_regions. reflexivity.
  - intros c' K' A' [r' C']. apply (S c' c r' r (regions_of (k_data k) c) C' C A'). apply attached_regions. reflexivity.
Qed.

(** Then the set-up succeeds exactly if every attached condition is ready. *)
Theorem c65_exactly : forall P is x, s_dim (p_settings P) = 2%nat \/ s_dim (p_settings P) = 3%nat -> reachable (p_bcs P) -> reachable (p_dcs P) ->
  orders_of P is -> sample_of P x ->
  (forall r c, carries (p_bcs P) r c \/ carries (p_dcs P) r c -> isa (c_class c) "Condition") ->
  (forall r, In r (dkeys (k_data (p_bcs P))) \/ In r (dkeys (k_data (p_dcs P))) -> ~ has_bar r) ->
  separate (p_bcs P) -> separate (p_dcs P) ->
  ((exists b, initialize P is x = Ok b) <-> all_ready P).
Proof.
  intros P is x Dim WB WD O X K NB SB SD. split; [|apply (c65_complete P is x Dim WB O X)].
  intros H. apply (c65_success P is x Dim WB X) in H. destruct H as (PH & M & LY & IN & BD & DM). destruct O as (OB & OD & OP & OI).
  split; [exact PH|]. split; [exact M|]. split.
  - intros r c C. apply BD. eapply separate_effect; try eassumption; [intros r' I; apply NB; left; exact I|apply (K r); left; exact C].
  - assert (NBD : forall r, In r (dkeys (k_data (p_dcs P))) -> ~ has_bar r) by (intros r' I; apply NB; right; exact I).
    intros r c C. split; [|split].
    + apply DM. eapply separate_effect; try eassumption. apply (K r). right. exact C.
    + intros I. apply IN. eapply separate_effect; eassumption.
    + intros I. apply LY. eapply separate_effect; eassumption.
Qed.
Print Assumptions c65_exactly.

(** ** What is built *)

Lemma setup_boundary_class P x c f : setup_boundary P x c = Ok (Some f) ->
  In (c_class c) boundary_classes /\ exists K, isa (c_class c) K /\ boundary_formulation K f.
Proof.
  unfold setup_boundary.
  repeat match goal with
  | |- context [if is_kind c ?b then _ else _] => let E := fresh "E" in destruct (is_kind c b) eqn:E
  | |- context [if is_kind c ?b || is_kind c ?b' then _ else _] =>
      let E := fresh "E" in let F := fresh "F" in destruct (is_kind c b) eqn:E; [|destruct (is_kind c b') eqn:F]; cbn [orb]
  end; try discriminate; intros H;
  (split; [match goal with E : is_kind c _ = true |- _ => apply kind_members in E; vm_compute in E; unfold boundary_classes; cbn; intuition end|]);
  apply bind_ok in H as (? & _ & H); apply ok_inj in H; injection H as <-;
  match goal with E : is_kind c ?b = true |- _ => exists b; split; [apply subclass_spec, E | constructor] end.
Qed.

Lemma setup_boundary_none P x c : setup_boundary P x c = Ok None -> isa (c_class c) "Periodic".
Proof.
  unfold setup_boundary.
  repeat match goal with
  | |- context [if is_kind c ?b then _ else _] => let E := fresh "E" in destruct (is_kind c b) eqn:E
  | |- context [if is_kind c ?b || is_kind c ?b' then _ else _] =>
      let E := fresh "E" in let F := fresh "F" in destruct (is_kind c b) eqn:E; [|destruct (is_kind c b') eqn:F]; cbn [orb]
  end; try discriminate; intros H; try (apply bind_ok in H as (? & _ & H); discriminate H). apply subclass_spec. assumption.
Qed.

Lemma setup_domain_class P x c f : setup_domain P x c = Ok (Some f) -> In (c_class c) ["SpongeLayer"; "PSpongeLayer"] /\ isa (c_class c) "SpongeLayer" /\ f = FSponge.
Proof.
  unfold setup_domain. destruct (is_kind c "SpongeLayer") eqn:E.
  - intros H. apply bind_ok in H as (? & _ & H). apply ok_inj in H. injection H as <-. split; [|split; [apply subclass_spec, E|reflexivity]].
    apply kind_members in E. vm_compute in E. cbn. intuition.
  - destruct (is_kind c "PSpongeLayer") eqn:E2; [apply kind_psponge in E2; congruence|]. destruct (is_kind c "Initial"); discriminate.
Qed.

Lemma setup_domain_none P x c : setup_domain P x c = Ok None -> isa (c_class c) "Initial".
Proof.
  unfold setup_domain. destruct (is_kind c "SpongeLayer"); [intros H; apply bind_ok in H as (? & _ & H); discriminate H|].
  destruct (is_kind c "PSpongeLayer"); [intros H; apply bind_ok in H as (? & _ & H); discriminate H|].
  destruct (is_kind c "Initial") eqn:E; [|discriminate]. intros _. apply subclass_spec, E.
Qed.

(** A problem that was set up has the spaces, time levels and forms of its configuration, and one term for each boundary
    condition in effect (periodic ones apart) and for each sponge layer in effect; and no other term. *)
Theorem c65_built : forall P is x b, s_dim (p_settings P) = 2%nat \/ s_dim (p_settings P) = 3%nat -> reachable (p_bcs P) ->
  sample_of P x -> initialize P is x = Ok b ->
  (s_law (p_settings P) = Inviscid -> b_spaces b = [("U", s_dim (p_settings P) + 2); ("Uhat", s_dim (p_settings P) + 2)]%nat) /\
  (s_law (p_settings P) <> Inviscid -> b_spaces b = [("U", 4); ("Uhat", 4); ("Q", 5)]%nat) /\
  In "convection" (b_forms b) /\ (In "diffusion" (b_forms b) <-> s_law (p_settings P) <> Inviscid) /\ (In "mixed" (b_forms b) <-> s_law (p_settings P) <> Inviscid) /\
  (In "time" (b_forms b) <-> p_transient P = true) /\
  (In "U" (b_levels b) <-> p_transient P = true) /\
  (In "Uhat" (b_levels b) <-> p_transient P = true /\ exists r c, carries (p_bcs P) r c /\ isa (c_class c) "CBC") /\
  (forall p c, In (p, c) (to_pattern (p_bcs P) (i_bcs is)) -> isa (c_class c) "Periodic" \/
     exists K f, isa (c_class c) K /\ boundary_formulation K f /\ dget (b_terms b) (cond_name c ++ "_" ++ p)%string = Some (f, p, c)) /\
  (forall p c, In (p, c) (to_pattern (p_dcs P) (i_dcs is)) -> isa (c_class c) "Initial" \/
     isa (c_class c) "SpongeLayer" /\ dget (b_terms b) (cond_name c ++ "_" ++ p)%string = Some (FSponge, p, c)) /\
  (forall key f p c, dget (b_terms b) key = Some (f, p, c) -> key = (cond_name c ++ "_" ++ p)%string /\
     (In (p, c) (to_pattern (p_bcs P) (i_bcs is)) /\ (exists K, isa (c_class c) K /\ boundary_formulation K f) \/
      In (p, c) (to_pattern (p_dcs P) (i_dcs is)) /\ isa (c_class c) "SpongeLayer" /\ f = FSponge)).
Proof.
  intros P is x b Dim WB X H0. pose proof (proj1 (c65_success P is x Dim WB X) (ex_intro _ b H0)) as (PH & _).
  unfold initialize in H0. apply bind_ok in H0 as (fes & H1 & H). pose proof (spaces_value _ _ _ H1) as E. pose proof (ex_intro _ fes H1 : succeeds _) as Q1. subst fes.
  destruct (mixed_ok P is Q1) as [S2 V2]. apply bind_ok in H as (fes & H2 & H). specialize (V2 _ H2). subst fes.
  apply bind_ok in H as (z & H3 & H). apply bind_ok in H as (l & H4 & H). cbn [app] in H4. destruct (time_ok P (mixed_entry P) WB) as (l' & H4' & L1 & L2 & _).
  rewrite H4' in H4. apply ok_inj in H4. subst l'. apply bind_ok in H as (z5 & H5 & H). apply bind_ok in H as (z6 & H6 & H).
  apply bind_ok in H as (d & H7 & H). apply bind_ok in H as (m & H8 & H). apply bind_ok in H as (t & H9 & H). apply bind_ok in H as (t' & H10 & H). apply ok_inj in H. subst b.
  cbn [b_spaces b_levels b_forms b_terms].
  assert (DM : (s_law (p_settings P) = Inviscid /\ p_mixed P = MInactive /\ d = [] /\ m = []) \/ (s_law (p_settings P) <> Inviscid /\ p_mixed P = MStrainHeat /\ s_dim (p_settings P) = 2%nat /\ d = ["diffusion"] /\ m = ["mixed"])).
  { destruct PH as [[[L Mx]|(L & Mx & D & _)] _]; [left|right].
    - unfold setup_diffusion in H7. rewrite (proj2 (law_cases _) L) in H7. apply ok_inj in H7. unfold setup_mixed in H8. rewrite Mx in H8. apply ok_inj in H8. split; [exact L|]. split; [exact Mx|]. split; congruence.
    - unfold setup_diffusion in H7. destruct (is_inviscid (p_settings P)) eqn:EI; [apply law_cases in EI; contradiction|].
      repeat (apply bind_ok in H7 as (? & _ & H7)). apply ok_inj in H7. unfold setup_mixed in H8. rewrite Mx, D in H8. cbn [Nat.eqb] in H8.
      repeat (apply bind_ok in H8 as (? & _ & H8)). apply ok_inj in H8. split; [exact L|]. split; [exact Mx|]. split; [exact D|]. split; congruence. }
  destruct (add_terms_spec (setup_boundary P x) (fun c f T => in_or_app _ _ _ (or_introl (proj1 (setup_boundary_class P x c f T)))) _ _ _ (NoDup_to_pattern _ _) H9) as (A1 & B1 & _).
  destruct (add_terms_spec (setup_domain P x) (fun c f T => in_or_app _ _ _ (or_intror (proj1 (setup_domain_class P x c f T)))) _ _ _ (NoDup_to_pattern _ _) H10) as (A2 & B2 & C2).
  assert (Keep : forall c rs f, In (c_class c) boundary_classes -> dget t (term_key c rs) = Some f -> dget t' (term_key c rs) = Some f).
  { intros c rs f I G. rewrite C2; [exact G|]. intros rs' c' f' I' T' EK. destruct (setup_domain_class P x c' f' T') as (I2 & _).
    destruct c as [i cl], c' as [i' cl']. unfold term_key, cond_name in EK. cbn [c_class] in *. cbn in I, I2.
    repeat (destruct I2 as [<-|I2]; [repeat (destruct I as [<-|I]; [vm_compute in EK; discriminate EK|]); contradiction|]). contradiction. }
  split. { intros L. destruct DM as [(_ & Mx & _)|(N & _)]; [|contradiction]. unfold mixed_entry. rewrite Mx. reflexivity. }
  split. { intros L. destruct DM as [(N & _)|(_ & Mx & D & _)]; [contradiction|]. unfold mixed_entry. rewrite Mx, D. reflexivity. }
  assert (TF : forall v, In v (if p_transient P then ["time"] else []) <-> p_transient P = true /\ v = "time").
  { intros v. destruct (p_transient P); cbn; split; [intros [<-|[]]; auto|intros [_ ->]; auto|intros []|intros [N _]; discriminate N]. }
  split; [left; reflexivity|].
  split. { destruct DM as [(N & _ & -> & ->)|(N & _ & _ & -> & ->)]; cbn [app In]; rewrite TF; split; try (intros; tauto); try (intros; intuition discriminate). }
  split. { destruct DM as [(N & _ & -> & ->)|(N & _ & _ & -> & ->)]; cbn [app In]; rewrite TF; split; try (intros; tauto); try (intros; intuition discriminate). }
  split. { destruct DM as [(N & _ & -> & ->)|(N & _ & _ & -> & ->)]; cbn [app In]; rewrite TF; (split; [intros [I|I]; [discriminate I|]; intuition discriminate|intros T; tauto]). }
  split; [exact L1|]. split; [exact L2|].
  split. { intros p c I. destruct (A1 p c I) as (o & T & G). destruct o as [f|].
    - right. destruct (setup_boundary_class P x c f T) as (IC & K & KI & BF). exists K, f. split; [exact KI|]. split; [exact BF|]. apply Keep; [exact IC|]. apply G. reflexivity.
    - left. eapply setup_boundary_none. exact T. }
  split. { intros p c I. destruct (A2 p c I) as (o & T & G). destruct o as [f|].
    - right. destruct (setup_domain_class P x c f T) as (_ & KI & ->). split; [exact KI|]. apply G. reflexivity.
    - left. eapply setup_domain_none. exact T. }
  intros key f p c G. apply B2 in G. destruct G as [G|(f' & p' & c' & I & T & -> & E)].
  - apply B1 in G. destruct G as [G|(f' & p' & c' & I & T & -> & E)]; [discriminate G|]. injection E as <- <- <-. split; [reflexivity|]. left. split; [exact I|]. apply (setup_boundary_class P x c f T).
  - injection E as <- <- <-. split; [reflexivity|]. right. split; [exact I|]. apply (setup_domain_class P x c f T).
Qed.
Print Assumptions c65_built.

(** ** What can not be set up *)

Lemma disjoint_classes c a b : isa (c_class c) a -> forallb (fun y => negb (subclass y b)) (a :: filter (fun y => subclass y a) (dkeys parents)) = true -> ~ isa (c_class c) b.
Proof.
  intros A F B. apply isa_members in A. apply subclass_spec in B. rewrite forallb_forall in F.
  assert (I : In (c_class c) (a :: filter (fun y => subclass y a) (dkeys parents))) by (destruct A as [A|A]; [left; congruence|right; exact A]).
  specialize (F _ I). rewrite B in F. discriminate F.
Qed.

(** Not every configuration that can be selected can be set up: a viscous solver needs the strain-heat method and two
    dimensions, an inviscid one no mixed method; three dimensions need the Lax-Friedrich or the HLL flux and exclude
    far field and characteristic conditions; characteristic conditions need a time scheme; an adiabatic wall, a PML, a
    force, a perturbation and a grid deformation can never be set up. *)
Theorem c65_limits : forall P is x, s_dim (p_settings P) = 2%nat \/ s_dim (p_settings P) = 3%nat -> reachable (p_bcs P) -> sample_of P x ->
  (exists c, in_effect (p_bcs P) (i_bcs is) c /\ isa (c_class c) "AdiabaticWall") \/
  (exists c, in_effect (p_bcs P) (i_bcs is) c /\ isa (c_class c) "FarField" /\ s_dim (p_settings P) = 3%nat) \/
  (exists c, in_effect (p_bcs P) (i_bcs is) c /\ isa (c_class c) "CBC" /\ (s_dim (p_settings P) = 3%nat \/ p_transient P = false)) \/
  (exists c, in_effect (p_dcs P) (i_dcs is) c /\ (isa (c_class c) "PML" \/ isa (c_class c) "Force" \/ isa (c_class c) "Perturbation" \/ isa (c_class c) "GridDeformation")) \/
  s_law (p_settings P) <> Inviscid /\ (p_mixed P <> MStrainHeat \/ s_dim (p_settings P) = 3%nat) \/
  s_law (p_settings P) = Inviscid /\ p_mixed P <> MInactive \/
  s_dim (p_settings P) = 3%nat /\ s_riemann (p_settings P) <> LaxFriedrich /\ s_riemann (p_settings P) <> HLL ->
  exists e, initialize P is x = Err e.
Proof.
  intros P is x Dim WB X H. destruct (initialize P is x) as [b|e] eqn:E; [exfalso|exists e; reflexivity].
  pose proof (proj1 (c65_success P is x Dim WB X) (ex_intro _ b E)) as ((PH & PR) & _ & _ & _ & BD & DM).
  assert (Bd : forall c b, in_effect (p_bcs P) (i_bcs is) c -> isa (c_class c) b ->
    forallb (fun b' => forallb (fun y => negb (subclass y b')) (b :: filter (fun y => subclass y b) (dkeys parents))) ["FarField"; "GRCBC"; "NSCBC"; "Outflow"; "InviscidWall"; "Symmetry"; "IsothermalWall"; "Periodic"] = true -> False).
  { intros c b' I A F. rewrite forallb_forall in F.
    destruct (BD c I) as [f K|f K|f K|K|f K|K]; [|destruct K as [K|K]| |destruct K as [K|K]| |]; refine (disjoint_classes c b' _ A (F _ _) K); repeat (first [left; reflexivity | right]). }
  destruct H as [(c & I & K)|[(c & I & K & D)|[(c & I & K & D)|[(c & I & K)|[(L & D)|[(L & D)|(D & R1 & R2)]]]]]].
  - apply (Bd c "AdiabaticWall" I K). vm_compute. reflexivity.
  - destruct (BD c I) as [f K' D'|f K' D'|f K'|K'|f K'|K']; try congruence; [| destruct K' as [K'|K']| |]; (eapply (disjoint_classes c "FarField"); [exact K| |exact K']; vm_compute; reflexivity).
  - destruct (BD c I) as [f K' D'|f K' D' T'|f K'|K'|f K'|K'].
    + eapply (disjoint_classes c "CBC"); [exact K| |exact K']; vm_compute; reflexivity.
    + destruct D; congruence.
    + eapply (disjoint_classes c "CBC"); [exact K| |exact K']; vm_compute; reflexivity.
    + destruct K' as [K'|K']; (eapply (disjoint_classes c "CBC"); [exact K| |exact K']; vm_compute; reflexivity).
    + eapply (disjoint_classes c "CBC"); [exact K| |exact K']; vm_compute; reflexivity.
    + eapply (disjoint_classes c "CBC"); [exact K| |exact K']; vm_compute; reflexivity.
  - destruct (DM c I) as [f K' _ _ _|K']; (destruct K as [K|[K|[K|K]]]; (eapply disjoint_classes; [exact K| |exact K']; vm_compute; reflexivity)).
  - destruct PH as [[L' _]|(_ & Mx & D2 & _)]; [contradiction|]. destruct D as [D|D]; congruence.
  - destruct PH as [[_ Mx]|(L' & _)]; contradiction.
  - destruct PR as [PR|[PR|PR]]; congruence.
Qed.
Print Assumptions c65_limits.

(** The full claim "fields may be given as a plain dictionary wherever fields are asked for" is false: initial conditions
    given so stop the set-up with an AttributeError. *)
Theorem c65_dictionary_refuted : forall P is x, s_dim (p_settings P) = 2%nat \/ s_dim (p_settings P) = 3%nat -> reachable (p_bcs P) ->
  (forall c, in_effect (p_dcs P) (i_psponge is) c -> layer_ready P c) -> mesh_ready P -> (s_law (p_settings P) = Inviscid <-> p_mixed P = MInactive) ->
  (forall c, in_effect (p_dcs P) (i_initial is) c -> initial_ready P c \/ exists f, o_fields (p_options P c) = Mapping f) ->
  (exists c f, in_effect (p_dcs P) (i_initial is) c /\ o_fields (p_options P c) = Mapping f) ->
  initialize P is x = Err AttributeError.
Proof.
  intros P is x Dim WB LY M MX All (c & f & [p I] & G). unfold initialize.
  apply (spaces_ok P is Dim) in LY. pose proof LY as [fes H1]. pose proof (spaces_value _ _ _ H1) as E. subst fes. rewrite H1. cbn [bind].
  destruct (mixed_ok P is LY) as [S2 V2]. destruct (proj2 S2 MX) as [fes H2]. rewrite H2. specialize (V2 _ H2). subst fes. cbn [bind].
  destruct (proj2 (mesh_ok P WB) M) as [z ->]. cbn [bind]. cbn [app]. destruct (time_ok P (mixed_entry P) WB) as (l & -> & _). cbn [bind].
  assert (IV : initial_values P (to_pattern (p_dcs P) (i_initial is)) = Err AttributeError).
  { assert (All' : forall p' c', In (p', c') (to_pattern (p_dcs P) (i_initial is)) -> initial_ready P c' \/ exists f, o_fields (p_options P c') = Mapping f) by (intros p' c' I'; apply All; exists p'; exact I').
    revert I All'. generalize (to_pattern (p_dcs P) (i_initial is)). intros items I All'. clear -I G All'. induction items as [|[q c'] items IH]; [contradiction|].
    cbn [initial_values]. destruct (All' q c' (or_introl eq_refl)) as [(f' & Hf' & C)|[f' Hf']].
    - rewrite Hf'. cbn [read_container bind]. apply complete_vector in C as (v & Hv & Lv). rewrite Hv. cbn [bind]. rewrite (proj2 (fits_ok _ _) Lv). cbn [bind]. apply IH.
      + destruct I as [I|I]; [injection I as <- <-; congruence|exact I].
      + intros p' c2 I2. apply (All' p' c2). right. exact I2.
    - rewrite Hf'. reflexivity. }
  rewrite IV. reflexivity.
Qed.
Print Assumptions c65_dictionary_refuted.

(** ** Examples *)

(** A channel: far field on the left, walls, an initial state, and a sponge layer in a domain of its own. *)
Definition still : flow := mk_flow (Some 1) (Some [1; 0]) None (Some (1 / 2)) None None None None None None None None None None.
Definition example_options (n : nat) : options :=
  match n with
  | 0%nat => mk_options (Mapping still) true TFarfield (FScalar 0) 0 false 1 Unset None 0
  | _ => mk_options (Fields still) true TFarfield (FScalar 0) 0 false 1 (Fields still) (Some 1) 0
  end.
Definition options_of (c : cond) : options := match c_id c with User n => example_options n | Auto _ => example_options 1 end.
Definition channel_bcs : conditions := run (init ["left"; "right"; "walls"] bcs_options)
  [Assign (PStr "left|right") (AObj (mk_cond (User 0) "FarField")); Assign (PStr "walls") (AKey "inviscid_wall")].
Definition channel_dcs (sponge : string) : conditions := run (init ["air"; "end"] dcs_options)
  [Assign (PStr "air|end") (AObj (mk_cond (User 2) "Initial")); Assign (PStr sponge) (AObj (mk_cond (User 3) "SpongeLayer"))].
Definition channel (law : viscosity_law) (mm : mixed_method) (sponge : string) : problem :=
  mk_problem (mk_settings (7 / 5) (3 / 10) 150 (72 / 100) Aerodynamic law LaxFriedrich 293 2) 4 mm true false channel_bcs (channel_dcs sponge) options_of.

(** The iteration orders of the channel; the sponge layer before or after the initial condition. *)
Definition channel_orders (sponge_first : bool) : orders :=
  let i := mk_cond (User 2) "Initial" in let sp := mk_cond (User 3) "SpongeLayer" in
  mk_orders [mk_cond (Auto 0) "InviscidWall"; mk_cond (User 0) "FarField"] (if sponge_first then [sp; i] else [i; sp]) [] [i].

Lemma channel_bcs_reachable : reachable channel_bcs.
Proof.
  eexists _, _, _. split; [|reflexivity]. intros p c I. cbn in I. destruct I as [E|[E|[]]]; [|discriminate E]. injection E as <- <-. eexists. reflexivity.
Qed.

Lemma channel_dcs_reachable sponge : reachable (channel_dcs sponge).
Proof.
  eexists _, _, _. split; [|reflexivity]. intros p c I. cbn in I. destruct I as [E|[E|[]]]; injection E as <- <-; eexists; reflexivity.
Qed.

Lemma carries_data k data r c : k_data k = data -> carries k r c -> exists l, In (r, l) data /\ In c l.
Proof. intros E (l & G & I). rewrite E in G. exists l. split; [apply dget_Some_In, G|exact I]. Qed.

Lemma channel_bcs_data : k_data channel_bcs = [("left", [mk_cond (User 0) "FarField"]); ("right", [mk_cond (User 0) "FarField"]); ("walls", [mk_cond (Auto 0) "InviscidWall"])].
Proof. vm_compute. reflexivity. Qed.
Lemma channel_dcs_end : k_data (channel_dcs "end") = [("air", [mk_cond (User 2) "Initial"]); ("end", [mk_cond (User 2) "Initial"; mk_cond (User 3) "SpongeLayer"])].
Proof. vm_compute. reflexivity. Qed.
Lemma channel_dcs_all : k_data (channel_dcs "air|end") = [("air", [mk_cond (User 2) "Initial"; mk_cond (User 3) "SpongeLayer"]); ("end", [mk_cond (User 2) "Initial"; mk_cond (User 3) "SpongeLayer"])].
Proof. vm_compute. reflexivity. Qed.

Lemma still_complete : complete 2 still.
Proof.
  split; [apply determined_bool; reflexivity|]. split; [apply determined_bool; reflexivity|].
  split; [right; split; apply determined_bool; reflexivity|]. split; [discriminate|]. intros _ u H. injection H as <-. reflexivity.
Qed.

Lemma channel_ready law mm sponge : law = Inviscid /\ mm = MInactive \/ law = Constant /\ mm = MStrainHeat -> sponge = "end" \/ sponge = "air|end" -> all_ready (channel law mm sponge).
Proof.
  intros LM SP. split; [|split; [intros H; discriminate H|split]].
  - split; [|left; reflexivity]. destruct LM as [[-> ->]|[-> ->]]; [left; split; reflexivity|right]. split; [discriminate|]. split; [reflexivity|]. split; [reflexivity|]. intros m H. discriminate H.
  - intros r c C. apply (carries_data _ _ _ _ channel_bcs_data) in C as (l & I & J). cbn [In] in I.
    assert (K : c = mk_cond (User 0) "FarField" \/ c = mk_cond (Auto 0) "InviscidWall").
    { destruct I as [I|[I|[I|[]]]]; injection I as <- <-; destruct J as [<-|[]]; auto. }
    destruct K as [->| ->]; [|apply ready_wall; left; constructor]. apply (ready_farfield _ _ still); [constructor|reflexivity|left; reflexivity|apply still_complete].
  - intros r c C. assert (K : c = mk_cond (User 2) "Initial" \/ c = mk_cond (User 3) "SpongeLayer").
    { cbn [channel p_dcs] in C. destruct SP as [-> | ->].
      - apply (carries_data _ _ _ _ channel_dcs_end) in C as (l & I & J). cbn [In] in I. destruct I as [I|[I|[]]]; injection I as <- <-; cbn [In] in J; intuition.
      - apply (carries_data _ _ _ _ channel_dcs_all) in C as (l & I & J). cbn [In] in I. destruct I as [I|[I|[]]]; injection I as <- <-; cbn [In] in J; intuition. }
    destruct K as [->| ->].
    + split; [apply ready_initial; constructor|]. split; [intros _; exists still; split; [reflexivity|apply still_complete]|]. intros H. apply subclass_spec in H. vm_compute in H. discriminate H.
    + split; [apply (ready_sponge _ _ still); [constructor|reflexivity|apply still_complete|discriminate]|].
      split; intros H; apply subclass_spec in H; vm_compute in H; discriminate H.
Qed.

Lemma channel_orders_ok law mm sponge first : sponge = "end" \/ sponge = "air|end" -> orders_of (channel law mm sponge) (channel_orders first).
Proof.
  intros SP.
  assert (B : forall c, (exists r, carries channel_bcs r c) <-> c = mk_cond (Auto 0) "InviscidWall" \/ c = mk_cond (User 0) "FarField").
  { intros c. split.
    - intros [r C]. apply (carries_data _ _ _ _ channel_bcs_data) in C as (l & I & J). cbn [In] in I. destruct I as [I|[I|[I|[]]]]; injection I as <- <-; destruct J as [<-|[]]; auto.
    - intros [->| ->]; [exists "walls"|exists "left"]; eexists; rewrite channel_bcs_data; (split; [reflexivity|left; reflexivity]). }
  assert (D : forall c, (exists r, carries (channel_dcs sponge) r c) <-> c = mk_cond (User 2) "Initial" \/ c = mk_cond (User 3) "SpongeLayer").
  { intros c. split.
    - intros [r C]. destruct SP as [-> | ->].
      + apply (carries_data _ _ _ _ channel_dcs_end) in C as (l & I & J). cbn [In] in I. destruct I as [I|[I|[]]]; injection I as <- <-; cbn [In] in J; intuition.
      + apply (carries_data _ _ _ _ channel_dcs_all) in C as (l & I & J). cbn [In] in I. destruct I as [I|[I|[]]]; injection I as <- <-; cbn [In] in J; intuition.
    - intros C. exists "end". destruct SP as [-> | ->]; eexists; rewrite ?channel_dcs_end, ?channel_dcs_all; (split; [reflexivity|]); cbn [In]; intuition. }
  cbn [orders_of]. unfold orders_of. cbn [channel p_bcs p_dcs channel_orders i_bcs i_dcs i_psponge i_initial].
  assert (N1 : forall a b : cond, a <> b -> NoDup [a; b]) by (intros a b N; repeat constructor; cbn; intuition).
  split; [|split; [|split]].
  - split; [apply N1; discriminate|]. intros c. rewrite B. cbn [In]. split; [intros [<-|[<-|[]]]; (split; [apply subclass_spec; vm_compute; reflexivity|]); auto|intros [_ [->| ->]]; auto].
  - split; [destruct first; apply N1; discriminate|]. intros c. rewrite D. destruct first; cbn [In];
      (split; [intros [<-|[<-|[]]]; (split; [apply subclass_spec; vm_compute; reflexivity|]); auto|intros [_ [->| ->]]; auto]).
  - split; [constructor|]. intros c. rewrite D. split; [intros []|]. intros [K [->| ->]]; apply subclass_spec in K; vm_compute in K; discriminate K.
  - split; [repeat constructor; cbn; auto|]. intros c. rewrite D. cbn [In]. split.
    + intros [<-|[]]. split; [constructor|left; reflexivity].
    + intros [K [->| ->]]; [left; reflexivity|]. apply subclass_spec in K. vm_compute in K. discriminate K.
Qed.

Example c65_example : forall law mm x, law = Inviscid /\ mm = MInactive \/ law = Constant /\ mm = MStrainHeat -> sample_of (channel law mm "end") x ->
  exists b, initialize (channel law mm "end") (channel_orders true) x = Ok b /\
    dget (b_terms b) "farfield_left|right" = Some (FFarField, "left|right", mk_cond (User 0) "FarField") /\
    dget (b_terms b) "inviscid_wall_walls" = Some (FInviscidWall, "walls", mk_cond (Auto 0) "InviscidWall") /\
    dget (b_terms b) "sponge_layer_end" = Some (FSponge, "end", mk_cond (User 3) "SpongeLayer").
Proof.
  intros law mm x LM X. assert (O := channel_orders_ok law mm "end" true (or_introl eq_refl)).
  destruct (c65_complete (channel law mm "end") (channel_orders true) x (or_introl eq_refl) channel_bcs_reachable O X (channel_ready law mm "end" LM (or_introl eq_refl))) as [b H].
  exists b. split; [exact H|]. destruct (c65_built (channel law mm "end") _ x b (or_introl eq_refl) channel_bcs_reachable X H) as (_ & _ & _ & _ & _ & _ & _ & _ & T1 & T2 & _).
  assert (P1 : to_pattern channel_bcs (i_bcs (channel_orders true)) = [("walls", mk_cond (Auto 0) "InviscidWall"); ("left|right", mk_cond (User 0) "FarField")]) by (vm_compute; reflexivity).
  assert (P2 : to_pattern (channel_dcs "end") (i_dcs (channel_orders true)) = [("end", mk_cond (User 3) "SpongeLayer"); ("air|end", mk_cond (User 2) "Initial")]) by (vm_compute; reflexivity).
  cbn [channel p_bcs p_dcs] in T1, T2. rewrite P1 in T1. rewrite P2 in T2.
  split; [|split].
  - destruct (T1 _ _ (or_intror (or_introl eq_refl))) as [K|(K & f & KI & BF & G)]; [apply subclass_spec in K; vm_compute in K; discriminate K|].
    destruct BF; try (apply subclass_spec in KI; vm_compute in KI; discriminate KI). exact G.
  - destruct (T1 _ _ (or_introl eq_refl)) as [K|(K & f & KI & BF & G)]; [apply subclass_spec in K; vm_compute in K; discriminate K|].
    destruct BF; try (apply subclass_spec in KI; vm_compute in KI; discriminate KI); exact G.
  - destruct (T2 _ _ (or_introl eq_refl)) as [K|(_ & G)]; [apply subclass_spec in K; vm_compute in K; discriminate K|exact G].
Qed.

(** A sponge layer on the domains of the initial condition is dropped for some orders of the set: the claim "every
    attached layer has its term" is false. *)
Theorem c65_layer_refuted : forall x, sample_of (channel Inviscid MInactive "air|end") x ->
  all_ready (channel Inviscid MInactive "air|end") /\ orders_of (channel Inviscid MInactive "air|end") (channel_orders true) /\
  (exists b, initialize (channel Inviscid MInactive "air|end") (channel_orders false) x = Ok b /\ dget (b_terms b) "sponge_layer_air|end" = Some (FSponge, "air|end", mk_cond (User 3) "SpongeLayer")) /\
  (exists b, initialize (channel Inviscid MInactive "air|end") (channel_orders true) x = Ok b /\ forall key p f, dget (b_terms b) key <> Some (f, p, mk_cond (User 3) "SpongeLayer")).
Proof.
  intros x X. assert (Rd := channel_ready Inviscid MInactive "air|end" (or_introl (conj eq_refl eq_refl)) (or_intror eq_refl)).
  split; [exact Rd|]. split; [apply channel_orders_ok; right; reflexivity|]. split.
  - destruct (c65_complete (channel Inviscid MInactive "air|end") (channel_orders false) x (or_introl eq_refl) channel_bcs_reachable (channel_orders_ok _ _ _ _ (or_intror eq_refl)) X Rd) as [b H].
    exists b. split; [exact H|]. destruct (c65_built (channel Inviscid MInactive "air|end") _ x b (or_introl eq_refl) channel_bcs_reachable X H) as (_ & _ & _ & _ & _ & _ & _ & _ & _ & T2 & _).
    assert (P2 : to_pattern (channel_dcs "air|end") (i_dcs (channel_orders false)) = [("air|end", mk_cond (User 3) "SpongeLayer")]) by (vm_compute; reflexivity).
    cbn [channel p_bcs p_dcs] in T2. rewrite P2 in T2. destruct (T2 _ _ (or_introl eq_refl)) as [K|(_ & G)]; [apply subclass_spec in K; vm_compute in K; discriminate K|exact G].
  - destruct (c65_complete (channel Inviscid MInactive "air|end") (channel_orders true) x (or_introl eq_refl) channel_bcs_reachable (channel_orders_ok _ _ _ _ (or_intror eq_refl)) X Rd) as [b H].
    exists b. split; [exact H|]. destruct (c65_built (channel Inviscid MInactive "air|end") _ x b (or_introl eq_refl) channel_bcs_reachable X H) as (_ & _ & _ & _ & _ & _ & _ & _ & _ & _ & T3).
    assert (P1 : to_pattern channel_bcs (i_bcs (channel_orders true)) = [("walls", mk_cond (Auto 0) "InviscidWall"); ("left|right", mk_cond (User 0) "FarField")]) by (vm_compute; reflexivity).
    assert (P2 : to_pattern (channel_dcs "air|end") (i_dcs (channel_orders true)) = [("air|end", mk_cond (User 2) "Initial")]) by (vm_compute; reflexivity).
    cbn [channel p_bcs p_dcs] in T3. rewrite P1, P2 in T3. intros key p f G. destruct (T3 _ _ _ _ G) as (_ & [(I & _)|(I & _)]).
    + destruct I as [I|[I|[]]]; discriminate I.
    + destruct I as [I|[]]; discriminate I.
Qed.
Print Assumptions c65_layer_refuted.

(** The channel with the layer in its own domain is separate, so its set-up succeeds exactly if all is ready. *)
Example c65_separate_example : separate channel_bcs /\ separate (channel_dcs "end").
Proof.
  split; intros a b r r' rs A B Ra Rb; apply attached_regions in Ra, Rb; subst rs.
  - apply (carries_data _ _ _ _ channel_bcs_data) in A as (l & I & J). apply (carries_data _ _ _ _ channel_bcs_data) in B as (l' & I' & J').
    assert (K : forall c l r, In (r, l) (k_data channel_bcs) -> In c l -> c = mk_cond (User 0) "FarField" \/ c = mk_cond (Auto 0) "InviscidWall").
    { intros c m q X Y. rewrite channel_bcs_data in X. destruct X as [X|[X|[X|[]]]]; injection X as <- <-; destruct Y as [<-|[]]; auto. }
    rewrite <- channel_bcs_data in I, I'. destruct (K _ _ _ I J) as [->| ->], (K _ _ _ I' J') as [->| ->]; try reflexivity; vm_compute in Rb; discriminate Rb.
  - apply (carries_data _ _ _ _ channel_dcs_end) in A as (l & I & J). apply (carries_data _ _ _ _ channel_dcs_end) in B as (l' & I' & J').
    assert (K : forall c l r, In (r, l) (k_data (channel_dcs "end")) -> In c l -> c = mk_cond (User 2) "Initial" \/ c = mk_cond (User 3) "SpongeLayer").
    { intros c m q X Y. rewrite channel_dcs_end in X. destruct X as [X|[X|[]]]; injection X as <- <-; cbn [In] in Y; intuition. }
    rewrite <- channel_dcs_end in I, I'. destruct (K _ _ _ I J) as [->| ->], (K _ _ _ I' J') as [->| ->]; try reflexivity; vm_compute in Rb; discriminate Rb.
Qed.

(** The same channel with its initial state given as a dictionary. *)
Example c65_dictionary_example : forall x,
  initialize (mk_problem air 4 MInactive true false channel_bcs (channel_dcs "end") (fun _ => example_options 0)) (channel_orders true) x = Err AttributeError.
Proof.
  intros x. apply c65_dictionary_refuted; [left; reflexivity|exact channel_bcs_reachable| | | | |].
  - intros c [p I]. vm_compute in I. contradiction.
  - intros H. discriminate H.
  - split; reflexivity.
  - intros c I. right. exists still. reflexivity.
  - exists (mk_cond (User 2) "Initial"), still. split; [|reflexivity]. exists "air|end". vm_compute. left. reflexivity.
Qed.
