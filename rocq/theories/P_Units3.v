(** C83: the whole problem in the reference values of another scaling. *)
From Coq Require Import Reals String List Arith Bool Lia Lra.
From Coquelicot Require Import Coquelicot.
From Verif Require Import Base M_Bla M_Flow M_Formulation M_Weak M_Mixed S_Flow S_Chars S_Formulation S_Scaling S_Stress S_Weak S_Mixed S_Turn S_Units L_Flow L_Formulation L_Weak P_Eos P_Chars P_Jacobian P_Split P_Riemann P_Boundary P_Unknowns L_Small L_Curve L_Turn P_Stress P_Trace L_Turn2 P_Mixed P_Cbc P_Scaling P_Turn P_Turn2 P_Turn3 L_Units P_Units P_Units2.
From Verif Require Import S_Formulation.
Import ListNotations.
Open Scope R_scope.
Open Scope list_scope.

Lemma weighted_gradient d a (F F' t : matrix) :
  rows F = (d + 2)%nat -> cols F = d -> length (entries F) = ((d + 2) * d)%nat -> rows F' = (d + 2)%nat -> cols F' = d -> length (entries F') = ((d + 2) * d)%nat ->
  rows t = (d + 2)%nat -> cols t = d -> length (entries t) = ((d + 2) * d)%nat ->
  (forall i j, (i < d + 2)%nat -> (j < d)%nat -> entry F' i j = a * (weight d a i * entry F i j)) ->
  inner (entries F') (entries t) = inner (entries F) (entries (tabulate (d + 2) d (fun i j => a * (weight d a i * entry t i j)))).
Proof.
  intros R1 C1 L1 R2 C2 L2 R3 C3 L3 H. rewrite !(entries_inner (d + 2) d); trivial; try apply tabulate_length.
  apply total_ext. intros i I. apply total_ext. intros j J. rewrite H, entry_tabulate by assumption. ring.
Qed.

Section Forms.
Variables (s : settings) (sc : scaling) (m : mesh) (kappa : nat -> R) (u : unknowns) (t : test) (Q' : nat -> grads).
Notation d := (s_dim s).
Notation a := (unit_ratio s sc).
Notation s' := (with_scaling s sc).
Hypothesis G : 1 < s_gamma s.
Hypothesis M : 0 < s_mach s.
Hypothesis Gas : gas s u.
Hypothesis Nm : unit_normals d m.
Hypothesis Wf : well_formed d t.
Notation u' := (convert_unknowns d a Q' u).
Notation t' := (reweight d a m kappa t).

Lemma facet_product y f : length f = (d + 2)%nat -> inner (vscale (facet_factor a m kappa y) (convert d a f)) (tVhat t y) = inner f (tVhat t' y).
Proof. intros L. destruct (Wf y) as (_ & Lv & _). cbn [tVhat reweight]. now apply scaled_inner. Qed.

Lemma masked_product y f : length f = (d + 2)%nat -> mask m y * inner (vscale a (convert d a f)) (tVhat t y) = mask m y * inner f (tVhat t' y).
Proof.
  intros L. rewrite <- (facet_product y f L). unfold mask, facet_factor. destruct (outer_facet m (facet m y)); [ring|reflexivity].
Qed.

Lemma element_product x f : length f = (d + 2)%nat -> inner (vscale a (convert d a f)) (tV t x) = inner f (tV t' x).
Proof. intros L. destruct (Wf x) as (Lv & _). cbn [tV reweight]. now apply scaled_inner. Qed.

Lemma convection_form_convert vol bnd v : convection_form s m vol bnd u t' = Ok v -> convection_form s' m vol bnd u' t = Ok v.
Proof.
  pose proof (unit_ratio_pos s sc M) as A.
  assert (Fl : forall y f, convection_Fn s m u y = Ok f -> length f = (d + 2)%nat /\ convection_Fn s' m u' y = Ok (vscale a (convert d a f))).
  { intros y f H. unfold convection_Fn in *. destruct (Nm y) as [Ln N1]. pose proof (gas_lengths s u Gas y) as [LU _]. destruct (Gas y) as [_ (st & V & Dim & E)].
    cbn [uU uUhat convert_unknowns]. rewrite E in H |- *. exact (c83_flux s sc st (uU u y) (normal m y) f G M V Dim LU Ln N1 H). }
  unfold convection_form. intros H. apply bind_ok in H as (x1 & Ha & H). apply bind_ok in H as (x2 & Hb & H). apply bind_ok in H as (x3 & Hc & H).
  rewrite (integral_same _ _ (fun x => let* F := convection_F s' u' x in Ok (- inner (entries F) (entries (tdV t x)))) _ Ha).
  2:{ intros w x _ z Hz. apply bind_ok in Hz as (F & EF & Hz). apply ok_inj in Hz. subst z. unfold convection_F in *. cbn [uU convert_unknowns tdV reweight].
      destruct (Gas x) as [(st & V & Dim & E) _]. rewrite E in EF |- *. rewrite (fields_ok s st G V Dim) in EF. cbn [bind] in EF.
      rewrite <- (convert_list (s_gamma s) a st G V d Dim). pose proof (convert_valid a st A V) as V'. pose proof (convert_dim a st d Dim) as Dim'.
      pose proof (fields_ok s' (convert_state a st) G V' Dim') as Fo. change (s_gamma s') with (s_gamma s) in Fo. rewrite Fo. cbn [bind].
      destruct (c45_flux s false st (full_fields s st) F G V (full_describes s st) ltac:(discriminate) EF) as (RF & CF & LF & BF). rewrite Dim in RF, CF, LF, BF.
      assert (EF' : exists F', get_convective_flux s' false (full_fields s' (convert_state a st)) = Ok F') by (unfold get_convective_flux, full_fields; eexists; reflexivity).
      destruct EF' as (F' & EF').
      destruct (c45_flux s' false (convert_state a st) _ F' G V' (full_describes s' (convert_state a st)) ltac:(discriminate) EF') as (RF' & CF' & LF' & BF').
      rewrite Dim' in RF', CF', LF', BF'. rewrite EF'. cbn [bind]. do 2 f_equal. destruct (Wf x) as (_ & _ & Rt & Ct & Lt).
      apply weighted_gradient; trivial. intros i j I J. rewrite (BF' i j I J), (BF i j I J). exact (convert_euler (s_gamma s) a st G V d i j Dim I). }
  rewrite (integral_same _ _ (fun y => let* Fn := convection_Fn s' m u' y in Ok (inner Fn (tV t y))) _ Hb).
  2:{ intros w y _ z Hz. apply bind_ok in Hz as (f & Ef & Hz). destruct (Fl y f Ef) as [Lf Ef']. rewrite Ef'. cbn [bind]. rewrite element_product by exact Lf. exact Hz. }
  rewrite (integral_same _ _ (fun y => let* Fn := convection_Fn s' m u' y in Ok (- mask m y * inner Fn (tVhat t y))) _ Hc).
  2:{ intros w y _ z Hz. apply bind_ok in Hz as (f & Ef & Hz). destruct (Fl y f Ef) as [Lf Ef']. rewrite Ef'. cbn [bind]. rewrite <- Hz. f_equal.
      rewrite !Ropp_mult_distr_l_reverse. f_equal. now apply masked_product. }
  exact H.
Qed.

Lemma diffusion_form_convert vol bnd v : (forall x, converted_gradients s a (uQ u x) (Q' x)) -> diffusion_form s m vol bnd u t' = Ok v -> diffusion_form s' m vol bnd u' t = Ok v.
Proof.
  intros Tg. pose proof (unit_ratio_pos s sc M) as A.
  assert (Fl : forall y f, diffusion_Gn s m u y = Ok f -> length f = (d + 2)%nat /\ diffusion_Gn s' m u' y = Ok (vscale a (convert d a f))).
  { intros y f H. unfold diffusion_Gn in *. destruct (Nm y) as [Ln N1]. pose proof (gas_lengths s u Gas y) as [LU _]. destruct (Gas y) as [_ (st & V & Dim & E)].
    cbn [uU uUhat uQ convert_unknowns]. rewrite E in H |- *. exact (c83_diffusion s sc st (uQ u y) (Q' y) (uU u y) (normal m y) f G M V Dim LU Ln (Tg y) H). }
  unfold diffusion_form. intros H. apply bind_ok in H as (x1 & Ha & H). apply bind_ok in H as (x2 & Hb & H). apply bind_ok in H as (x3 & Hc & H).
  rewrite (integral_same _ _ (fun x => let* F := diffusion_G s' u' x in Ok (inner (entries F) (entries (tdV t x)))) _ Ha).
  2:{ intros w x _ z Hz. apply bind_ok in Hz as (F & EF & Hz). apply ok_inj in Hz. subst z. unfold diffusion_G in *. cbn [uU uQ convert_unknowns tdV reweight].
      destruct (Gas x) as [(st & V & Dim & E) _]. rewrite E in EF |- *. rewrite (fields_ok s st G V Dim) in EF. cbn [bind] in EF.
      rewrite <- (convert_list (s_gamma s) a st G V d Dim). pose proof (convert_valid a st A V) as V'. pose proof (convert_dim a st d Dim) as Dim'.
      pose proof (fields_ok s' (convert_state a st) G V' Dim') as Fo. change (s_gamma s') with (s_gamma s) in Fo. rewrite Fo. cbn [bind].
      destruct (diffusive_flux_convert s sc st (uQ u x) (Q' x) G M V Dim (Tg x) F EF) as (RF & CF & LF & F' & EF' & RF' & CF' & LF' & BF').
      rewrite EF'. cbn [bind]. f_equal. destruct (Wf x) as (_ & _ & Rt & Ct & Lt). now apply weighted_gradient. }
  rewrite (integral_same _ _ (fun y => let* Fn := diffusion_Gn s' m u' y in Ok (inner Fn (tV t y))) _ Hb).
  2:{ intros w y _ z Hz. apply bind_ok in Hz as (f & Ef & Hz). destruct (Fl y f Ef) as [Lf Ef']. rewrite Ef'. cbn [bind]. rewrite element_product by exact Lf. exact Hz. }
  rewrite (integral_same _ _ (fun y => let* Fn := diffusion_Gn s' m u' y in Ok (mask m y * inner Fn (tVhat t y))) _ Hc).
  2:{ intros w y _ z Hz. apply bind_ok in Hz as (f & Ef & Hz). destruct (Fl y f Ef) as [Lf Ef']. rewrite Ef'. cbn [bind]. rewrite <- Hz. f_equal. now apply masked_product. }
  exact H.
Qed.

Lemma boundary_form_convert bs bs' v : converted_terms d a m kappa bs bs' -> boundary_form bs t' = Ok v -> boundary_form bs' t = Ok v.
Proof.
  intros T. revert v. induction T as [|b b' bs bs' [Er Tb] T IH]; intros v H; [exact H|]. cbn [boundary_form] in *.
  apply bind_ok in H as (x1 & Ha & H). apply bind_ok in H as (x2 & Hc & H). rewrite Er.
  rewrite (integral_same _ _ (fun y => let* r := b_vector b' y in Ok (inner r (tVhat t y))) _ Ha).
  2:{ intros w y I z Hz. apply bind_ok in Hz as (f & Ef & Hz). destruct (Tb w y I) as [Ou C]. destruct (C f Ef) as [Lf Ef']. rewrite Ef'. cbn [bind]. rewrite <- Hz. f_equal.
      rewrite <- (facet_product y f Lf). unfold facet_factor. now rewrite Ou. }
  rewrite (IH x2 Hc). exact H.
Qed.

Lemma domain_form_convert ls ls' v : converted_layers s a ls ls' -> domain_form s ls u t' = Ok v -> domain_form s' ls' u' t = Ok v.
Proof.
  intros T. revert v. induction T as [|l l' ls ls' [Er Tb] T IH]; intros v H; [exact H|]. cbn [domain_form] in *.
  apply bind_ok in H as (x1 & Ha & H). apply bind_ok in H as (x2 & Hc & H). rewrite Er.
  rewrite (integral_same _ _ (fun x => let* r := sponge_residual s' (s_target l' x) (s_function l' x) (uU u' x) in Ok (inner r (tV t x))) _ Ha).
  2:{ intros w x I z Hz. apply bind_ok in Hz as (f & Ef & Hz). unfold sponge_residual in *. apply bind_ok in Ef as (tg & Et & Ef). apply ok_inj in Ef. subst f.
      destruct (Tb w x I) as [Ew Tt]. destruct (Tt tg Et) as [Lt Et']. change (conservative_vector s' (s_target l' x)) with (conservative_vector s (s_target l' x)). rewrite Et', Ew, vscale_one. cbn [bind uU convert_unknowns].
      pose proof (gas_lengths s u Gas x) as [LU _]. assert (Ld : length (vsub (uU u x) tg) = (d + 2)%nat) by (rewrite vsub_length; lia).
      rewrite convert_vsub by assumption. rewrite <- Hz. f_equal.
      rewrite <- (element_product x) by (rewrite vscale_length; exact Ld). rewrite <- convert_vscale. f_equal. unfold vscale. rewrite map_map. apply map_ext. intros. ring. }
  rewrite (IH x2 Hc). exact H.
Qed.

Lemma time_form_convert h q v : levels_have (d + 2) h -> time_form h q u t' = Ok v -> time_form (convert_scheme d a h) q u' t = Ok v.
Proof.
  intros L H. pose proof (unit_ratio_pos s sc M) as A. unfold time_form in *. refine (integral_same _ _ _ _ H _). intros w x _ z Ez. rewrite <- Ez. f_equal. cbn [uU convert_unknowns].
  pose proof (gas_lengths s u Gas x) as [LU _].
  assert (Dv : forall W e, length W = (d + 2)%nat -> vdiv (convert d a W) (e / a) = vscale a (convert d a (vdiv W e))).
  { intros W e LW. apply scaled_make; [rewrite vdiv_length; apply convert_length|]. intros i I. rewrite vdiv_nth, convert_nth, vdiv_nth by exact I. unfold Rdiv. rewrite Rinv_mult, Rinv_inv. ring. }
  destruct h as [dt n|dt n nm1]; cbn [convert_scheme time_derivative levels_have] in *.
  - assert (Ld : length (vsub (uU u x) (n x)) = (d + 2)%nat) by (rewrite vsub_length, LU, L; apply Nat.min_id).
    rewrite convert_vsub by (trivial; apply L). rewrite (Dv _ _ Ld). apply element_product. now rewrite vdiv_length.
  - destruct (L x) as [Ln Lm].
    assert (L1 : length (vsub (vscale 3 (uU u x)) (vscale 4 (n x))) = (d + 2)%nat) by (rewrite vsub_length, !vscale_length, LU, Ln; apply Nat.min_id).
    assert (L2 : length (vadd (vsub (vscale 3 (uU u x)) (vscale 4 (n x))) (nm1 x)) = (d + 2)%nat) by (rewrite vadd_length, L1, Lm; apply Nat.min_id).
    rewrite !convert_vscale. rewrite convert_vsub by (rewrite vscale_length; assumption). rewrite convert_vadd by assumption.
    replace (2 * (dt / a)) with (2 * dt / a) by (unfold Rdiv; ring). rewrite (Dv _ _ L2). apply element_product. now rewrite vdiv_length.
Qed.
End Forms.

(** The weak form of the problem in the other scaling at the same flow: the same equations with other weights. *)
Theorem c83_form : forall s sc m kappa r bs bs' ls ls' h u Q' t v, 1 < s_gamma s -> 0 < s_mach s -> gas s u -> unit_normals (s_dim s) m -> well_formed (s_dim s) t ->
  let a := unit_ratio s sc in
  levels_have (s_dim s + 2) h -> converted_terms (s_dim s) a m kappa bs bs' -> converted_layers s a ls ls' ->
  (s_law s <> Inviscid -> forall x, converted_gradients s a (uQ u x) (Q' x)) ->
  weak_form s m r bs ls h u (reweight (s_dim s) a m kappa t) = Ok v ->
  weak_form (with_scaling s sc) m r bs' ls' (convert_scheme (s_dim s) a h) (convert_unknowns (s_dim s) a Q' u) t = Ok v.
Proof.
  intros s sc m kappa r bs bs' ls ls' h u Q' t v G M Gas Nm Wf a Lv Tb Tl Tg H. unfold weak_form in *. change (s_law (with_scaling s sc)) with (s_law s).
  apply bind_ok in H as (c & Hc & H). apply bind_ok in H as (e & He & H). apply bind_ok in H as (b & Hb & H). apply bind_ok in H as (l & Hl & H). apply bind_ok in H as (k & Hk & H).
  unfold a. rewrite (convection_form_convert s sc m kappa u t Q' G M Gas Nm Wf _ _ _ Hc).
  assert (He' : match s_law s with Inviscid => Ok 0 | _ => diffusion_form (with_scaling s sc) m (r_dvol r) (r_dbnd r) (convert_unknowns (s_dim s) a Q' u) t end = Ok e).
  { destruct (s_law s); [exact He| |]; apply (diffusion_form_convert s sc m kappa u t Q' G M Gas Nm Wf); trivial; apply Tg; discriminate. }
  fold a. rewrite He'. cbn [bind]. rewrite (boundary_form_convert s sc m kappa t Wf bs bs' b Tb Hb). cbn [bind]. unfold a.
  rewrite (domain_form_convert s sc m kappa u t Q' Gas Wf ls ls' l Tl Hl), (time_form_convert s sc m kappa u t Q' M Gas Wf h _ _ Lv Hk). exact H.
Qed.
Print Assumptions c83_form.

(** A solution of the discrete problem is, in the reference values of the other scaling, a solution of the other discrete problem. *)
Theorem c83_solution : forall s sc m kappa r bs bs' ls ls' h (W : test -> Prop) u Q', 1 < s_gamma s -> 0 < s_mach s -> gas s u -> unit_normals (s_dim s) m ->
  let a := unit_ratio s sc in
  (forall t, W t -> well_formed (s_dim s) t) -> (forall t, W t -> W (reweight (s_dim s) a m kappa t)) ->
  levels_have (s_dim s + 2) h -> converted_terms (s_dim s) a m kappa bs bs' -> converted_layers s a ls ls' ->
  (s_law s <> Inviscid -> forall x, converted_gradients s a (uQ u x) (Q' x)) ->
  solves s m r bs ls h W u ->
  solves (with_scaling s sc) m r bs' ls' (convert_scheme (s_dim s) a h) W (convert_unknowns (s_dim s) a Q' u).
Proof.
  intros s sc m kappa r bs bs' ls ls' h W u Q' G M Gas Nm a Wf Wc Lv Tb Tl Tg H t Wt.
  exact (c83_form s sc m kappa r bs bs' ls ls' h u Q' t 0 G M Gas Nm (Wf t Wt) Lv Tb Tl Tg (H _ (Wc t Wt))).
Qed.
Print Assumptions c83_solution.

(** ** The mixed unknown in the plane *)

(** The form that defines the strain rate and the temperature gradient. *)
Theorem c83_mixed : forall s sc m dx vol bnd u Q P Q' v, 1 < s_gamma s -> 0 < s_mach s -> s_dim s = 2%nat -> gas s u -> unit_normals 2 m -> five Q P ->
  let a := unit_ratio s sc in
  mixed_form s m dx vol bnd u Q (reweight_five a P) = Ok v ->
  mixed_form (with_scaling s sc) m dx vol bnd (convert_unknowns 2 a Q' u) (fun x => convert_five a (Q x)) P = Ok v.
Proof.
  intros s sc m dx vol bnd u Q P Q' v G M D2 Gas Nm F a H. pose proof (unit_ratio_pos s sc M) as A. fold a in A. unfold mixed_form in *. change (s_dim (with_scaling s sc)) with (s_dim s). rewrite D2 in *. cbn [Nat.eqb] in *.
  assert (Mp : forall q, length q = 5%nat -> mixed_parts s q = Ok (mk_matrix 2 2 [1 * nth 0 q 0; 1 * nth 1 q 0; 1 * nth 1 q 0; 1 * nth 2 q 0], [nth 3 q 0; nth 4 q 0])) by (intros q; apply parts_five; exact D2).
  assert (Mp' : forall q, length q = 5%nat -> mixed_parts (with_scaling s sc) q = Ok (mk_matrix 2 2 [1 * nth 0 q 0; 1 * nth 1 q 0; 1 * nth 1 q 0; 1 * nth 2 q 0], [nth 3 q 0; nth 4 q 0])) by (intros q; apply parts_five; exact D2).
  assert (Vt : forall st, valid st -> length (st_u st) = s_dim s -> velocity_and_temperature (with_scaling s sc) (convert 2 a (conservative_list (s_gamma s) st)) = Ok (vscale a (st_u st), a * a * q_T (s_gamma s) st)).
  { intros st V Dim. rewrite D2 in Dim. rewrite <- (convert_list (s_gamma s) a st G V 2 Dim). rewrite <- (convert_T (s_gamma s) a st G V).
    exact (velocity_temperature (with_scaling s sc) (convert_state a st) G (convert_valid a st A V) (eq_trans (convert_dim a st 2 Dim) (eq_sym D2))). }
  assert (Ve : forall x, exists w T, length w = 2%nat /\ velocity_and_temperature s (uU u x) = Ok (w, T) /\ velocity_and_temperature (with_scaling s sc) (convert 2 a (uU u x)) = Ok (vscale a w, a * a * T)).
  { intros x. destruct (Gas x) as [(st & V & Dim & E) _]. rewrite E. exists (st_u st), (q_T (s_gamma s) st). split; [congruence|]. split; [now apply velocity_temperature|now apply Vt]. }
  assert (Vh : forall x, exists w T, length w = 2%nat /\ velocity_and_temperature s (uUhat u x) = Ok (w, T) /\ velocity_and_temperature (with_scaling s sc) (convert 2 a (uUhat u x)) = Ok (vscale a w, a * a * T)).
  { intros x. destruct (Gas x) as [_ (st & V & Dim & E)]. rewrite E. exists (st_u st), (q_T (s_gamma s) st). split; [congruence|]. split; [now apply velocity_temperature|now apply Vt]. }
  apply bind_ok in H as (i1 & Ha & H). apply bind_ok in H as (i2 & Hb & H). apply bind_ok in H as (i3 & Hc & H). apply bind_ok in H as (i4 & Hd & H). apply bind_ok in H as (i5 & He & H). apply bind_ok in H as (i6 & Hf & H).
  erewrite (integral_same dx _ _ _ Ha).
  2:{ intros w x _ z Hz. destruct (F x) as [LQ LP]. rewrite !Mp in Hz by (trivial; reflexivity). rewrite !Mp' by (trivial; reflexivity). cbn [bind fst entries] in Hz |- *. rewrite <- Hz. f_equal.
      cbn [tP reweight_five convert_five nth inner]. ring. }
  cbn [bind]. erewrite (integral_same vol _ _ _ Hb).
  2:{ intros w x _ z Hz. destruct (Ve x) as (y & T & Ly & E & E'). rewrite E in Hz. cbn [uU convert_unknowns]. rewrite E'. cbn [bind fst] in Hz |- *. rewrite <- Hz. f_equal.
      destruct (two_entries y Ly) as (y0 & y1 & ->). unfold div_dev_zeta, reweight_five. cbn [tdP]. rewrite !entry_tabulate by lia. cbn. field. }
  cbn [bind]. erewrite (integral_same bnd _ _ _ Hc).
  2:{ intros w x _ z Hz. destruct (F x) as [LQ LP]. destruct (Vh x) as (y & T & Ly & E & E'). rewrite E, Mp in Hz by reflexivity. cbn [uUhat convert_unknowns]. rewrite E', Mp' by exact LP.
      cbn [bind fst] in Hz |- *. rewrite (dev_value s D2) in Hz. rewrite (dev_value (with_scaling s sc) D2). cbn [bind fst] in Hz |- *. rewrite <- Hz. f_equal.
      destruct (two_entries y Ly) as (y0 & y1 & ->). destruct (two_entries _ (proj1 (Nm x))) as (n0 & n1 & ->). cbn. field. }
  cbn [bind]. erewrite (integral_same dx _ _ _ Hd).
  2:{ intros w x _ z Hz. destruct (F x) as [LQ LP]. rewrite !Mp in Hz by (trivial; reflexivity). rewrite !Mp' by (trivial; reflexivity). cbn [bind snd] in Hz |- *. rewrite <- Hz. f_equal.
      cbn [tP reweight_five convert_five nth inner]. ring. }
  cbn [bind]. erewrite (integral_same vol _ _ _ He).
  2:{ intros w x _ z Hz. destruct (Ve x) as (y & T & Ly & E & E'). rewrite E in Hz. cbn [uU convert_unknowns]. rewrite E'. cbn [bind snd] in Hz |- *. rewrite <- Hz. f_equal.
      unfold div_xi, reweight_five. cbn [tdP]. rewrite !entry_tabulate by lia. cbn. ring. }
  cbn [bind]. erewrite (integral_same bnd _ _ _ Hf).
  2:{ intros w x _ z Hz. destruct (F x) as [LQ LP]. destruct (Vh x) as (y & T & Ly & E & E'). rewrite E, Mp in Hz by reflexivity. cbn [uUhat convert_unknowns]. rewrite E', Mp' by exact LP.
      cbn [bind fst snd] in Hz |- *. rewrite <- Hz. f_equal. destruct (two_entries _ (proj1 (Nm x))) as (n0 & n1 & ->). cbn. ring. }
  exact H.
Qed.
Print Assumptions c83_mixed.

(** The gradients that the converted mixed unknown stands for. *)
Theorem c83_gradients : forall s a Q, s_dim s = 2%nat -> length Q = 5%nat ->
  exists dU dU', strain_heat_fields s Q = Ok dU /\ strain_heat_fields s (convert_five a Q) = Ok dU' /\ converted_gradients s a dU dU'.
Proof.
  intros s a Q D2 L. destruct Q as [|q0 [|q1 [|q2 [|q3 [|q4 [|]]]]]]; try discriminate L. unfold strain_heat_fields. rewrite D2. cbn -[convert_five].
  eexists. eexists. split; [reflexivity|]. split; [reflexivity|]. eexists. eexists. split.
  - unfold viscous_gradients, strain_rate_tensor. rewrite D2. cbn. split; [reflexivity|]. split; [|split; reflexivity]. split; [reflexivity|split; reflexivity].
  - unfold viscous_gradients, strain_rate_tensor. rewrite D2. cbn. split; [|split; [|split; [reflexivity|reflexivity]]].
    + apply f_equal. unfold scale. cbn. apply (f_equal (mk_matrix 2 2)). repeat (apply f_equal2; [ring|]). reflexivity.
    + split; [reflexivity|split; reflexivity].
Qed.
Print Assumptions c83_gradients.

(** ** What is evaluated from the flow *)

Lemma pressure_convert s a U p : pressure s U = Ok p -> pressure s (convert_flow a U) = Ok (a * a * p).
Proof.
  unfold pressure, eos_pressure. cbn [convert_flow f_p f_rho f_T f_rho_Ei f_c]. intros H.
  destruct (f_p U), (f_rho U), (f_T U), (f_rho_Ei U), (f_c U); cbn [option_map equation] in *; try discriminate H; apply ok_inj in H; subst; f_equal; unfold Rdiv; ring.
Qed.

Lemma scale_scale k l A : scale k (scale l A) = scale (k * l) A.
Proof. unfold scale. cbn. f_equal. rewrite map_map. apply map_ext. intros. ring. Qed.

Lemma scale_madd k A B : madd (scale k A) (scale k B) = scale k (madd A B).
Proof.
  unfold madd, scale. cbn. f_equal. generalize (entries A) (entries B). intros x. induction x as [|x0 x IH]; intros [|y0 y]; cbn; trivial. unfold vadd in IH |- *. f_equal; [ring|apply IH].
Qed.

Lemma scale_mvmul k A n : mvmul (scale k A) n = vscale k (mvmul A n).
Proof.
  apply (nth_ext _ _ 0 0); [rewrite vscale_length, !mvmul_length; reflexivity|]. rewrite mvmul_length. intros i I. cbn [scale rows] in I.
  rewrite vscale_nth, !mvmul_total by exact I. cbn [scale cols]. rewrite <- total_scale. apply total_ext. intros j J. rewrite scale_entry. ring.
Qed.

(** Pressure, drag and lift coefficients are the same, by whichever fields flow and reference are given. *)
Theorem c83_coefficients : forall s sc U ref dU dU' direction n v, 0 < s_mach s ->
  let a := unit_ratio s sc in
  (pressure_coefficient s U ref = Ok v -> pressure_coefficient (with_scaling s sc) (convert_flow a U) (convert_flow a ref) = Ok v) /\
  ((s_law s <> Inviscid -> converted_gradients s a dU dU') -> force_coefficient s U dU ref direction n = Ok v ->
   force_coefficient (with_scaling s sc) (convert_flow a U) dU' (convert_flow a ref) direction n = Ok v).
Proof.
  intros s sc U ref dU dU' direction n v M a. pose proof (unit_ratio_pos s sc M) as A. fold a in A. pose proof (a_square a A) as N. split.
  - unfold pressure_coefficient. intros H. apply bind_ok in H as (p & Ep & H). apply bind_ok in H as (p0 & Ep0 & H). apply bind_ok in H as (k & Ek & H). apply ok_inj in H. subst v.
    change (pressure (with_scaling s sc)) with (pressure s). rewrite (pressure_convert s a U p Ep), (pressure_convert s a ref p0 Ep0), (kinetic_convert a ref k Ek). cbn [bind]. f_equal.
    rewrite <- (cancel_div (a * a) (p - p0) k N). f_equal. ring.
  - intros T H. unfold force_coefficient in *. apply bind_ok in H as (sg & Es & H). apply bind_ok in H as (k & Ek & H). apply ok_inj in H. subst v.
    assert (Es' : stress_tensor (with_scaling s sc) (convert_flow a U) dU' = Ok (scale (a * a) sg)).
    { unfold stress_tensor in *. apply bind_ok in Es as (p & Ep & Es). change (pressure (with_scaling s sc)) with (pressure s). rewrite (pressure_convert s a U p Ep). cbn [bind].
      change (s_dim (with_scaling s sc)) with (s_dim s). change (s_law (with_scaling s sc)) with (s_law s).
      replace (- (a * a * p)) with (a * a * - p) by ring. rewrite <- scale_scale.
      assert (De : s_law s <> Inviscid -> forall tau, deviatoric_stress_tensor s U dU = Ok tau -> deviatoric_stress_tensor (with_scaling s sc) (convert_flow a U) dU' = Ok (scale (a * a) tau)).
      { intros L tau Et. unfold deviatoric_stress_tensor in *. destruct (viscosity s U) as [mu|] eqn:Em; [|discriminate Et]. destruct (reference_reynolds_number s) as [re|] eqn:Er; [|discriminate Et].
        destruct (T L) as (eps & dT & (E1 & _) & (E2 & _)). rewrite E1 in Et. pose proof (viscosity_convert s sc U mu M Em) as Em'. fold a in Em'. rewrite Em', (reynolds_convert s sc re M Er). fold a.
        change (strain_rate_tensor (with_scaling s sc) dU') with (strain_rate_tensor s dU'). rewrite E2. cbn in Et |- *. apply ok_inj in Et. subst tau. f_equal. rewrite !scale_scale. f_equal.
        unfold Rdiv. rewrite Rinv_mult, Rinv_inv. ring. }
      destruct (s_law s); [apply ok_inj in Es; subst sg; reflexivity| |]; apply bind_ok in Es as (tau & Et & Es); apply ok_inj in Es; subst sg; rewrite (De ltac:(discriminate) tau Et); cbn [bind]; now rewrite scale_madd. }
    rewrite Es', (kinetic_convert a ref k Ek). cbn [bind]. f_equal. rewrite scale_mvmul, convert_speed. now apply cancel_div.
Qed.
Print Assumptions c83_coefficients.

(** The local Reynolds number is not: it goes with the velocity, so it differs between two scalings (but for Mach number 1); its product with the reference Reynolds number is the same. *)
Theorem c83_local_reynolds_refuted : forall s sc st v, 1 < s_gamma s -> 0 < s_mach s -> valid st ->
  let a := unit_ratio s sc in
  get_local_reynolds_number s false (full_fields s st) = Ok v ->
  get_local_reynolds_number (with_scaling s sc) false (convert_flow a (full_fields s st)) = Ok (a * v) /\
  (sc <> s_scaling s -> s_mach s <> 1 -> v <> 0 -> a * v <> v) /\
  (forall re, reference_reynolds_number s = Ok re -> exists re', reference_reynolds_number (with_scaling s sc) = Ok re' /\ re' * (a * v) = re * v).
Proof.
  intros s sc st v G M V a H. pose proof (unit_ratio_pos s sc M) as A. fold a in A. split; [|split].
  - unfold get_local_reynolds_number in *. apply bind_ok in H as (rho & Er & H). apply bind_ok in H as (w & Ew & H). apply bind_ok in H as (mu & Em & H). apply ok_inj in H. subst v.
    change (density (with_scaling s sc)) with (density s). rewrite (density_convert s a _ A), Er. cbn [bind].
    assert (Ew' : velocity false (convert_flow a (full_fields s st)) = Ok (vscale a w)) by (cbn in Ew |- *; apply ok_inj in Ew; now subst w). rewrite Ew'. cbn [bind].
    pose proof (viscosity_convert s sc _ mu M Em) as Em'. fold a in Em'. rewrite Em'. cbn [bind]. f_equal. rewrite convert_square, sqrt_mult, sqrt_square; [|lra|nra|apply inner_nonneg]. unfold Rdiv. ring.
  - intros Ns N1 Nv E. assert (E1 : a = 1) by (apply (Rmult_eq_reg_r v); [lra|exact Nv]). pose proof (unit_ratio_speed s sc M) as Sp. fold a in Sp. rewrite E1, Rmult_1_l in Sp. clear - M Ns N1 Sp.
    assert (K : forall x, 0 < x -> x / (1 + x) < 1) by (intros x X; apply (Rmult_lt_reg_r (1 + x)); [lra|]; unfold Rdiv; rewrite Rmult_assoc, Rinv_l; lra).
    assert (L : forall x, 0 < x -> x / (1 + x) < x) by (intros x X; apply (Rmult_lt_reg_r (1 + x)); [lra|]; unfold Rdiv; rewrite Rmult_assoc, Rinv_l; nra).
    pose proof (K _ M) as K1. pose proof (L _ M) as L1. destruct sc, (s_scaling s); cbn in Sp; try (now apply Ns); try (apply N1; lra); lra.
  - intros re Er. exists (re / a). split; [now apply reynolds_convert|]. field. lra.
Qed.
Print Assumptions c83_local_reynolds_refuted.

(** Choosing the first scaling again takes everything back. *)
Theorem c83_back : forall s sc, 0 < s_mach s ->
  let a := unit_ratio s sc in
  let b := unit_ratio (with_scaling s sc) (s_scaling s) in
  with_scaling (with_scaling s sc) (s_scaling s) = s /\
  (forall U, length U = (s_dim s + 2)%nat -> convert (s_dim s) b (convert (s_dim s) a U) = U) /\
  (forall st, convert_state b (convert_state a st) = st) /\
  (forall Q, length Q = 5%nat -> convert_five b (convert_five a Q) = Q).
Proof.
  intros s sc M a b. assert (I : b * a = 1).
  { unfold b, a, unit_ratio. cbn [with_scaling s_scaling s_mach]. pose proof (speed_pos sc (s_mach s) M). pose proof (speed_pos (s_scaling s) (s_mach s) M). field. split; lra. }
  split; [destruct s; reflexivity|]. split; [|split].
  - intros U L. symmetry. apply convert_make; [exact L|]. intros i Hi. rewrite convert_nth by exact Hi. unfold weight.
    destruct (i =? 0)%nat; [ring|]. destruct (i <=? s_dim s)%nat; [rewrite <- Rmult_assoc, I; ring|]. replace (b * b * (a * a * nth i U 0)) with ((b * a) * (b * a) * nth i U 0) by ring. rewrite I. ring.
  - intros [rho w p]. unfold convert_state. cbn. f_equal.
    + unfold vscale. rewrite map_map, <- (map_id w) at 1. rewrite map_id. rewrite <- (map_id w) at 2. apply map_ext. intros x. rewrite <- Rmult_assoc, I. ring.
    + replace (b * b * (a * a * p)) with ((b * a) * (b * a) * p) by ring. rewrite I. ring.
  - intros Q L. destruct Q as [|q0 [|q1 [|q2 [|q3 [|q4 [|]]]]]]; try discriminate L. unfold convert_five. cbn [nth].
    assert (X : forall q, b * (a * q) = q) by (intros q; rewrite <- Rmult_assoc, I; ring). assert (Y : forall q, b * b * (a * a * q) = q) by (intros q; replace (b * b * (a * a * q)) with ((b * a) * (b * a) * q) by ring; rewrite I; ring).
    now rewrite !X, !Y.
Qed.
Print Assumptions c83_back.

(** Air at Mach number 3/10 in the aerodynamic scaling, in the acoustic one: velocities are 3/10, pressures 9/100 of their values. *)
Example c83_example :
  unit_ratio air Acoustic = 3 / 10 /\
  convert_state (3 / 10) (mk_state (7 / 5) [3; -4] 4) = mk_state (7 / 5) [9 / 10; - (12 / 10)] (36 / 100) /\
  convert 2 (3 / 10) (conservative_list (7 / 5) (mk_state (7 / 5) [3; -4] 4)) = conservative_list (7 / 5) (mk_state (7 / 5) [9 / 10; - (12 / 10)] (36 / 100)) /\
  (forall V, get_farfield_state air [1; 0] = Ok V -> get_farfield_state (with_scaling air Acoustic) [1; 0] = Ok (convert_flow (3 / 10) V)) /\
  exists V, get_farfield_state air [1; 0] = Ok V /\ f_p V = Some (1 / (7 / 5) / (3 / 10) ^ 2).
Proof.
  assert (E : unit_ratio air Acoustic = 3 / 10) by (unfold unit_ratio; cbn; field).
  assert (C : convert_state (3 / 10) (mk_state (7 / 5) [3; -4] 4) = mk_state (7 / 5) [9 / 10; - (12 / 10)] (36 / 100)) by (unfold convert_state; cbn; f_equal; [repeat (apply f_equal2; [field|]); reflexivity|field]).
  split; [exact E|]. split; [exact C|]. split; [|split].
  - rewrite <- C. symmetry. apply convert_list; [lra|split; cbn; lra|reflexivity].
  - intros V H. rewrite <- E. exact (proj1 (proj2 (c83_reference air Acoustic ltac:(cbn; lra) ltac:(cbn; lra))) [1; 0] V H).
  - unfold get_farfield_state. rewrite (sound_ok air ltac:(cbn; lra)). cbn. eexists. split; [reflexivity|]. cbn. apply (f_equal Some). unfold scaling_density. field.
Qed.

(** The flow of [c81_example_problem] that leaves through an outflow, in the acoustic scaling. *)
Example c83_example_problem :
  let a := unit_ratio air Acoustic in
  let s' := with_scaling air Acoustic in
  let H := conservative_list (7 / 5) (mk_state (7 / 5) [3; -4] 4) in
  let H' := conservative_list (7 / 5) (mk_state (7 / 5) [9 / 10; - (12 / 10)] (36 / 100)) in
  let m := mk_mesh (fun _ => 0%nat) (fun _ => 0%nat) (fun _ => [3 / 5; - (4 / 5)]) (fun _ => true) in
  let r := mk_rules [] [] [] [] [(1, 0%nat)] in
  let u := mk_unknowns (fun _ => H) (fun _ => H) (fun _ => no_grads) in
  let u' := mk_unknowns (fun _ => H') (fun _ => H') (fun _ => no_grads) in
  solves air m r [mk_bterm [(1, 0%nat)] (fun _ => outflow_residual air 4 H H)] [] (IE 1 (fun _ => H)) (well_formed 2) u /\
  solves s' m r [mk_bterm [(1, 0%nat)] (fun _ => outflow_residual s' (a * a * 4) H' H')] [] (IE (1 / a) (fun _ => H')) (well_formed 2) u'.
Proof.
  intros a s' H H' m r u u'. destruct c81_example_problem as (Sv & _ & Nm & _). fold H m r u in Sv, Nm. split; [exact Sv|].
  destruct c83_example as (Ea & _ & Eh & _). rewrite <- Ea in Eh. fold a H H' in Eh. set (st := mk_state (7 / 5) [3; -4] 4) in *. assert (V : valid st) by (split; cbn; lra).
  assert (Gs : gas air u) by (intros x; split; exists st; (split; [exact V|split; reflexivity])).
  assert (Tb : converted_terms 2 a m (fun _ => 1) [mk_bterm [(1, 0%nat)] (fun _ => outflow_residual air 4 H H)] [mk_bterm [(1, 0%nat)] (fun _ => outflow_residual s' (a * a * 4) H' H')]).
  { constructor; [|constructor]. split; [reflexivity|]. intros w y _. split; [reflexivity|]. cbn [b_vector]. rewrite <- Eh.
    exact (proj1 (c83_walls air Acoustic st H [3 / 5; - (4 / 5)] 4 1 ltac:(cbn; lra) ltac:(cbn; lra) V eq_refl eq_refl eq_refl ltac:(cbn; field))). }
  assert (Wc : forall t, well_formed 2 t -> well_formed 2 (reweight 2 a m (fun _ => 1) t)).
  { intros t _ x. cbn [reweight tV tVhat tdV]. rewrite !vscale_length, !convert_length. repeat split; try reflexivity. }
  pose proof (c83_solution air Acoustic m (fun _ => 1) r _ _ [] [] (IE 1 (fun _ => H)) (well_formed 2) u (fun _ => no_grads) ltac:(cbn; lra) ltac:(cbn; lra) Gs Nm (fun t Wt => Wt) Wc (fun _ => eq_refl) Tb (Forall2_nil _) (fun F => False_ind _ (F eq_refl)) Sv) as X.
  fold a in X. cbn [s_dim air] in X. unfold convert_unknowns, convert_scheme in X. cbn [uU uUhat u] in X. rewrite Eh in X. exact X.
Qed.
