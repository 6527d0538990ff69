(** C77: small disturbances of a uniform flow do not grow. *)
From Coq Require Import Reals String List Arith Bool Lia Lra Psatz Permutation.
From Coquelicot Require Import Coquelicot.
From Verif Require Import Base M_Bla M_Flow M_Formulation M_Weak S_Flow S_Chars S_Formulation S_Weak S_March S_Small L_Flow L_Formulation L_Weak P_Eos P_Chars P_Jacobian P_Split P_Riemann P_Boundary P_Uniform L_Small L_Curve L_Rate L_Linear L_Gram L_Disturb L_Estimate.
From Verif Require Import S_Formulation.
Import ListNotations.
Open Scope R_scope.
Open Scope list_scope.

(** The changes of density, velocity and pressure of the vocabulary are the derivatives of density, velocity and pressure along
    every curve of states whose mass, momentum and energy change with the rate [v]. *)
Theorem c77_rates : forall g (curve : R -> state) v, 1 < g -> valid (curve 0) -> (forall eps, length (st_u (curve eps)) = 2%nat) ->
  (forall k, (k < 4)%nat -> is_derive (fun eps => nth k (conservative_list g (curve eps)) 0) 0 (nth k v 0)) ->
  is_derive (fun eps => st_rho (curve eps)) 0 (d_density v) /\
  (forall i, (i < 2)%nat -> is_derive (fun eps => nth i (st_u (curve eps)) 0) 0 (d_velocity (curve 0) v i)) /\
  is_derive (fun eps => st_p (curve eps)) 0 (d_pressure g (curve 0) v).
Proof.
  intros g cv v G V Lu D.
  assert (Ev : forall eps, exists ux uy, st_u (cv eps) = [ux; uy] /\ conservative_list g (cv eps) =
    [st_rho (cv eps); st_rho (cv eps) * ux; st_rho (cv eps) * uy; st_rho (cv eps) * ((ux * ux + uy * uy) / 2) + st_rho (cv eps) * (st_p (cv eps) / (g - 1) / st_rho (cv eps))]).
  { intros eps. specialize (Lu eps). destruct (st_u (cv eps)) as [|ux [|uy [|q l]]] eqn:E; try discriminate Lu. exists ux, uy. split; [reflexivity|].
    unfold conservative_list, q_rho_u, q_rho_E, q_E, q_Ei, q_rho_Ei, q_Ek. rewrite E. cbn [map app inner]. 
    match goal with |- [_; _; _; ?a] = [_; _; _; ?b] => assert (X : a = b) by (unfold Rdiv; ring); now rewrite X end. }
  assert (D0 : is_derive (fun eps => st_rho (cv eps)) 0 (nth 0 v 0)).
  { apply (is_derive_ext (fun eps => nth 0 (conservative_list g (cv eps)) 0)); [intros eps; destruct (Ev eps) as (a & b & _ & ->); reflexivity|apply D; lia]. }
  destruct V as [R0 P0]. assert (Nr : locally 0 (fun eps => 0 < st_rho (cv eps))) by (apply (cpos (fun eps => st_rho (cv eps))); [exact (derive_cont _ _ D0)|exact R0]).
  assert (Du : forall i, (i < 2)%nat -> is_derive (fun eps => nth i (st_u (cv eps)) 0) 0 (d_velocity (cv 0) v i)).
  { intros i I. apply (is_derive_ext_loc (fun eps => nth (i + 1) (conservative_list g (cv eps)) 0 / st_rho (cv eps))).
    - revert Nr. apply filter_imp. intros eps Pr. destruct (Ev eps) as (a & b & E & ->). rewrite E. destruct i as [|[|i]]; [| |lia]; cbn [nth Nat.add]; match goal with |- ?a = ?b => change (@eq R a b) end; field; lra.
    - evar_last; [apply (is_derive_div (fun eps => nth (i + 1) (conservative_list g (cv eps)) 0) (fun eps => st_rho (cv eps)) 0 _ _ (D (i + 1)%nat ltac:(lia)) D0); lra|].
      unfold d_velocity. destruct (Ev 0) as (a & b & E & ->). rewrite E. destruct i as [|[|i]]; [| |lia]; cbn [nth Nat.add]; match goal with |- ?a = ?b => change (@eq R a b) end; field; lra. }
  split; [exact D0|]. split; [exact Du|].
  set (r := fun eps => st_rho (cv eps)). set (a := fun eps => nth 0 (st_u (cv eps)) 0). set (b := fun eps => nth 1 (st_u (cv eps)) 0). set (en := fun eps => nth 3 (conservative_list g (cv eps)) 0).
  apply (is_derive_ext_loc (fun eps => (g - 1) * (en eps - r eps * ((a eps * a eps + b eps * b eps) / 2)))).
  - revert Nr. apply filter_imp. intros eps Pr. unfold en, r, a, b. destruct (Ev eps) as (x & y & E & ->). rewrite E. cbn [nth]. match goal with |- ?a = ?b => change (@eq R a b) end. field. lra.
  - pose proof (Du 0%nat ltac:(lia)) as Da. pose proof (Du 1%nat ltac:(lia)) as Db. pose proof (D 3%nat ltac:(lia)) as De. fold a in Da. fold b in Db. fold en in De. fold r in D0.
    assert (Pd : forall f h df dh, is_derive f 0 df -> is_derive h 0 dh -> is_derive (fun eps => f eps * h eps) 0 (df * h 0 + f 0 * dh))
      by (intros f h df dh Df Dh; apply (is_derive_mult f h 0 df dh Df Dh); intros; apply Rmult_comm).
    pose proof (Pd _ _ _ _ Da Da) as Daa. pose proof (Pd _ _ _ _ Db Db) as Dbb.
    assert (Dk : is_derive (fun eps => / 2 * (a eps * a eps + b eps * b eps)) 0 (/ 2 * ((d_velocity (cv 0) v 0 * a 0 + a 0 * d_velocity (cv 0) v 0) + (d_velocity (cv 0) v 1 * b 0 + b 0 * d_velocity (cv 0) v 1))))
      by (apply is_derive_scal; apply @is_derive_plus; assumption).
    pose proof (Pd _ _ _ _ D0 Dk) as Drk.
    apply (is_derive_ext (fun eps => (g - 1) * (en eps - r eps * (/ 2 * (a eps * a eps + b eps * b eps))))).
    { intros eps. match goal with |- ?x = ?y => change (@eq R x y) end. field. }
    evar_last; [apply is_derive_scal; apply @is_derive_minus; [exact De|exact Drk]|].
    unfold d_pressure, a, b, r, d_velocity. destruct (Ev 0) as (x & y & E & _). rewrite E. cbn [nth Nat.add].
    match goal with |- ?l = ?q => change (@eq R ((g - 1) * (nth 3 v 0 - (nth 0 v 0 * (/ 2 * (x * x + y * y)) + st_rho (cv 0) * (/ 2 * ((nth 1 v 0 - x * nth 0 v 0) / st_rho (cv 0) * x + x * ((nth 1 v 0 - x * nth 0 v 0) / st_rho (cv 0)) + ((nth 2 v 0 - y * nth 0 v 0) / st_rho (cv 0) * y + y * ((nth 2 v 0 - y * nth 0 v 0) / st_rho (cv 0)))))))) q) end.
    field. lra.
Qed.
Print Assumptions c77_rates.

(** The energy of a disturbance is positive. *)
Theorem c77_energy : forall g st al v, 1 < g -> valid st -> length (st_u st) = 2%nat -> 0 < al -> length v = 4%nat ->
  0 <= disturbance_energy g st al v /\ (disturbance_energy g st al v = 0 <-> vanishes v).
Proof.
  intros g st al v G V Lu Al Lv. pose proof (q_c_pos g st G V) as C. destruct V as [R0 P0].
  destruct (st_u st) as [|ux [|uy [|q l]]] eqn:E; try discriminate Lu. destruct v as [|v0 [|v1 [|v2 [|v3 [|v4 w]]]]]; try discriminate Lv.
  unfold disturbance_energy. set (a := d_velocity st [v0; v1; v2; v3] 0). set (b := d_velocity st [v0; v1; v2; v3] 1). set (p := d_pressure g st [v0; v1; v2; v3]).
  set (c := q_c g st) in *. set (h := d_density [v0; v1; v2; v3] - p / c ^ 2). cbv zeta.
  assert (C2 : 0 < c ^ 2) by now apply pow_lt.
  assert (T1 : 0 <= st_rho st / 2 * a ^ 2) by (apply Rmult_le_pos; [lra|apply pow2_ge_0]). assert (T2 : 0 <= st_rho st / 2 * b ^ 2) by (apply Rmult_le_pos; [lra|apply pow2_ge_0]).
  assert (T3 : 0 <= p ^ 2 / (2 * st_rho st * c ^ 2)) by (apply Rle_mult_inv_pos; [apply pow2_ge_0|apply Rmult_lt_0_compat; lra]).
  assert (T4 : 0 <= al / 2 * h ^ 2) by (apply Rmult_le_pos; [lra|apply pow2_ge_0]).
  split; [rewrite Rmult_plus_distr_l; lra|]. split.
  - rewrite Rmult_plus_distr_l. intros Z.
    assert (Sq : forall k x, 0 < k -> k * x ^ 2 = 0 -> x = 0) by (intros k x K Hx; apply Rmult_integral in Hx as [Hx|Hx]; [lra|]; apply Rsqr_0_uniq; unfold Rsqr; cbn [pow] in Hx; lra).
    assert (Za : a = 0) by (apply (Sq (st_rho st / 2)); lra). assert (Zb : b = 0) by (apply (Sq (st_rho st / 2)); lra).
    assert (Zp : p = 0). { apply (Sq (/ (2 * st_rho st * c ^ 2))); [apply Rinv_0_lt_compat, Rmult_lt_0_compat; lra|]. rewrite Rmult_comm. fold (Rdiv (p ^ 2) (2 * st_rho st * c ^ 2)). lra. }
    assert (Zh : h = 0) by (apply (Sq (al / 2)); lra).
    assert (Z0 : v0 = 0). { unfold h in Zh. rewrite Zp in Zh. unfold d_density in Zh. cbn [nth] in Zh. unfold Rdiv in Zh. lra. }
    assert (Z1 : v1 = 0). { unfold a, d_velocity in Za. rewrite E, Z0 in Za. cbn [nth Nat.add] in Za. apply (Rmult_eq_reg_r (/ st_rho st)); [|apply Rinv_neq_0_compat; lra]. unfold Rdiv in Za. lra. }
    assert (Z2 : v2 = 0). { unfold b, d_velocity in Zb. rewrite E, Z0 in Zb. cbn [nth Nat.add] in Zb. apply (Rmult_eq_reg_r (/ st_rho st)); [|apply Rinv_neq_0_compat; lra]. unfold Rdiv in Zb. lra. }
    assert (Z3 : v3 = 0). { unfold p, d_pressure in Zp. rewrite Z0, Z1, Z2 in Zp. cbn [nth] in Zp. apply Rmult_integral in Zp as [Zp|Zp]; lra. }
    subst. intros i. do 4 (destruct i as [|i]; [reflexivity|]). destruct i; reflexivity.
  - intros Z. pose proof (Z 0%nat) as Z0. pose proof (Z 1%nat) as Z1. pose proof (Z 2%nat) as Z2. pose proof (Z 3%nat) as Z3. cbn [nth] in Z0, Z1, Z2, Z3. subst.
    unfold h, a, b, p, d_density, d_velocity, d_pressure. cbn [nth Nat.add]. field. lra.
Qed.
Print Assumptions c77_energy.

(** ** A step *)

Section Steps.
Variables (s : settings) (m : mesh) (r : rules) (bs : list (rule * edge)) (ls : list sponge) (st : state) (twin : nat -> nat) (W : test -> Prop) (dt al : R).
Hypothesis G : 1 < s_gamma s.
Hypothesis V : valid st.
Hypothesis Lu : length (st_u st) = 2%nat.
Hypothesis D2 : s_dim s = 2%nat.
Hypothesis Inv : s_law s = Inviscid.
Hypothesis Dt : 0 < dt.
Hypothesis Al : 0 < al.
Hypothesis Pm : plane_mesh m (r_cbnd r).
Hypothesis Tw : two_sided m (r_cbnd r) twin.
Hypothesis En : enclosed s m st (r_cbnd r) bs.
Hypothesis Ca : calms s st ls.
Hypothesis Nt : nonnegative (r_time r).
Hypothesis Ts : test_space m r twin W.

Lemma step_energy (u : R -> unknowns) e (sc : R -> scheme) dd : family s st u e -> W e ->
  (forall x, vderives 4 (fun eps => Ok (time_derivative (sc eps) (uU (u eps) x) x)) (dd x)) ->
  locally 0 (fun eps => solves s m r (edge_terms s m bs (u eps)) ls (sc eps) W (u eps)) ->
  weighted (r_time r) (fun x => energy_form s st al (dd x) (tV e x)) <= 0.
Proof.
  intros F We Td So. destruct (st_u st) as [|ux [|uy [|q l]]] eqn:Eu; try discriminate Lu.
  destruct (Ts e We) as (Wf & Sv & Gs & Mx).
  assert (Ld : forall x, length (dd x) = 4%nat) by (intros x; destruct (Td x) as (h & _ & L & _); exact L).
  destruct (energy_estimate s m r bs ls st ux uy al e twin G V Eu Al Wf Sv Gs Tw Pm dd En Ca Ld) as (K & Sh & Est). apply Est.
  assert (Wm : W (mixed m (HH s st ux uy al) K e)) by (apply Mx; [apply gram_shape|exact Sh]).
  apply (derives_zero (fun eps => weak_form s m r (edge_terms s m bs (u eps)) ls (sc eps) (u eps) (mixed m (HH s st ux uy al) K e))).
  - apply (weak_form_derives s m r bs ls st ux uy u e _ sc dd G V Eu D2 Inv F Wf); trivial. apply (Ts _ Wm).
  - revert So. apply filter_imp. intros eps So. exact (So _ Wm).
Qed.

Lemma ef_linear (a b c x : list R) (p q t : R) : length a = 4%nat -> length b = 4%nat -> length c = 4%nat ->
  energy_form s st al (vadd (vsub (vscale p a) (vscale q b)) (vscale t c)) x = p * energy_form s st al a x - q * energy_form s st al b x + t * energy_form s st al c x.
Proof.
  intros La Lb Lc. destruct (st_u st) as [|ux [|uy [|z l]]] eqn:Eu; try discriminate Lu.
  assert (L4 : length (vadd (vsub (vscale p a) (vscale q b)) (vscale t c)) = 4%nat) by (rewrite vadd_length, vsub_length, !vscale_length, La, Lb, Lc; reflexivity).
  rewrite <- !(HH_inner s st ux uy al G V Eu) by assumption.
  rewrite !inner_total by (rewrite mvmul_length; change (rows (HH s st ux uy al)) with 4%nat; congruence). rewrite L4, La, Lb, Lc. cbn [total].
  rewrite !vadd_nth, !vsub_nth, !vscale_nth by (rewrite ?vsub_length, ?vscale_length, ?La, ?Lb, ?Lc; reflexivity). ring.
Qed.

Lemma ef_sym x y : energy_form s st al x y = energy_form s st al y x.
Proof. unfold energy_form, Rdiv. ring. Qed.

Lemma disturbance_form e : 2 * disturbance (s_gamma s) st al (r_time r) e = weighted (r_time r) (fun x => energy_form s st al (tV e x) (tV e x)).
Proof.
  unfold disturbance. rewrite <- weighted_scale. apply weighted_ext. intros w x _. now rewrite (energy_double s st al G V).
Qed.

Lemma ef_pos x : length x = 4%nat -> 0 <= energy_form s st al x x.
Proof. intros L. rewrite (energy_double s st al G V). destruct (c77_energy (s_gamma s) st al x G V Lu Al L). lra. Qed.

Lemma disturbance_nonneg e : well_formed 2 e -> 0 <= disturbance (s_gamma s) st al (r_time r) e.
Proof. intros We. apply weighted_nonneg; [exact Nt|]. intros w x _. apply (c77_energy (s_gamma s) st al _ G V Lu Al). apply (We x). Qed.

Lemma vd_const_scale (f : R -> list R) v k x0 : (k < 4)%nat -> is_derive (fun eps => nth k (f eps) 0) 0 (nth k v 0) -> is_derive (fun eps => x0 * nth k (f eps) 0) 0 (x0 * nth k v 0).
Proof. intros _ D. apply is_derive_scal. exact D. Qed.

Lemma euler_step (u0 u1 : R -> unknowns) e0 e1 : family s st u0 e0 -> family s st u1 e1 -> W e0 -> W e1 ->
  locally 0 (fun eps => solves s m r (edge_terms s m bs (u1 eps)) ls (IE dt (uU (u0 eps))) W (u1 eps)) ->
  disturbance (s_gamma s) st al (r_time r) e1 <= disturbance (s_gamma s) st al (r_time r) e0.
Proof.
  intros F0 F1 W0 W1 So.
  assert (L0 : forall x, length (tV e0 x) = 4%nat) by (intros x; apply (Ts e0 W0)). assert (L1 : forall x, length (tV e1 x) = 4%nat) by (intros x; apply (Ts e1 W1)).
  assert (X := step_energy u1 e1 (fun eps => IE dt (uU (u0 eps))) (fun x => vdiv (vsub (tV e1 x) (tV e0 x)) dt) F1 W1).
  assert (Y : weighted (r_time r) (fun x => energy_form s st al (vdiv (vsub (tV e1 x) (tV e0 x)) dt) (tV e1 x)) <= 0).
  { apply X; [|exact So]. intros x. cbn [time_derivative].
    destruct F0 as [_ F0], F1 as [_ F1]. destruct (F0 x) as [A0 B0], (F1 x) as [A1 B1].
    apply (vderives_make 4 _ (fun eps => vdiv (vsub (uU (u1 eps) x) (uU (u0 eps) x)) dt)).
    - apply filter_forall. reflexivity.
    - intros eps. rewrite vdiv_length, vsub_length, (proj1 (A0 eps)), (proj1 (A1 eps)). reflexivity.
    - rewrite vdiv_length, vsub_length, L0, L1. reflexivity.
    - intros k K. rewrite vdiv_nth, vsub_nth by (rewrite L0, L1; reflexivity).
      apply (is_derive_ext (fun eps => / dt * (nth k (uU (u1 eps) x) 0 - nth k (uU (u0 eps) x) 0))).
      { intros eps. rewrite vdiv_nth, vsub_nth by (rewrite (proj1 (A0 eps)), (proj1 (A1 eps)); reflexivity). match goal with |- ?x = ?y => change (@eq R x y) end. unfold Rdiv. ring. }
      unfold Rdiv. rewrite Rmult_comm. apply is_derive_scal. apply @is_derive_minus; [apply B1, K|apply B0, K]. }
  rewrite (weighted_ext _ _ (fun x => / dt * (energy_form s st al (tV e1 x) (tV e1 x) - energy_form s st al (tV e0 x) (tV e1 x)))) in Y.
  2: { intros w x _.
       replace (vdiv (vsub (tV e1 x) (tV e0 x)) dt) with (vadd (vsub (vscale (/ dt) (tV e1 x)) (vscale (/ dt) (tV e0 x))) (vscale 0 (tV e0 x))).
       - rewrite ef_linear by trivial. ring.
       - apply (nth_ext _ _ 0 0); [rewrite vadd_length, vdiv_length, !vsub_length, !vscale_length, L0, L1; reflexivity|]. intros k _.
         rewrite vadd_nth, vdiv_nth, !vsub_nth, !vscale_nth by (rewrite ?vsub_length, ?vscale_length, ?L0, ?L1; reflexivity). unfold Rdiv. ring. }
  rewrite weighted_scale in Y.
  assert (Z : weighted (r_time r) (fun x => energy_form s st al (tV e1 x) (tV e1 x) - energy_form s st al (tV e0 x) (tV e1 x)) <= 0).
  { apply (Rmult_le_reg_l (/ dt)); [now apply Rinv_0_lt_compat|]. lra. }
  assert (Q : weighted (r_time r) (fun x => (energy_form s st al (tV e1 x) (tV e1 x) + -1 * energy_form s st al (tV e0 x) (tV e0 x)) + -2 * (energy_form s st al (tV e1 x) (tV e1 x) - energy_form s st al (tV e0 x) (tV e1 x))) <= 0).
  { rewrite <- (weighted_zero (r_time r) (fun _ => 0)) by reflexivity. apply weighted_le; [exact Nt|]. intros w x _.
    assert (P : 0 <= energy_form s st al (vadd (vsub (vscale 1 (tV e1 x)) (vscale 1 (tV e0 x))) (vscale 0 (tV e0 x))) (vadd (vsub (vscale 1 (tV e1 x)) (vscale 1 (tV e0 x))) (vscale 0 (tV e0 x)))).
    { apply ef_pos. rewrite vadd_length, vsub_length, !vscale_length, L0, L1. reflexivity. }
    rewrite ef_linear in P by trivial. rewrite !(ef_sym _ (vadd _ _)), !ef_linear in P by trivial. rewrite (ef_sym (tV e1 x) (tV e0 x)) in P. lra. }
  rewrite !weighted_plus, !weighted_scale, <- !disturbance_form in Q. lra.
Qed.

Lemma bdf2_step (u0 u1 u2 : R -> unknowns) e0 e1 e2 : family s st u0 e0 -> family s st u1 e1 -> family s st u2 e2 -> W e0 -> W e1 -> W e2 ->
  locally 0 (fun eps => solves s m r (edge_terms s m bs (u2 eps)) ls (BDF dt (uU (u1 eps)) (uU (u0 eps))) W (u2 eps)) ->
  let N a b := weighted (r_time r) (fun x => energy_form s st al (tV a x) (tV b x)) in
  N e2 e2 + (4 * N e2 e2 - 4 * N e2 e1 + N e1 e1) <= N e1 e1 + (4 * N e1 e1 - 4 * N e1 e0 + N e0 e0).
Proof.
  intros F0 F1 F2 W0 W1 W2 So N.
  assert (L0 : forall x, length (tV e0 x) = 4%nat) by (intros x; apply (Ts e0 W0)). assert (L1 : forall x, length (tV e1 x) = 4%nat) by (intros x; apply (Ts e1 W1)).
  assert (L2 : forall x, length (tV e2 x) = 4%nat) by (intros x; apply (Ts e2 W2)).
  assert (X := step_energy u2 e2 (fun eps => BDF dt (uU (u1 eps)) (uU (u0 eps))) (fun x => vdiv (vadd (vsub (vscale 3 (tV e2 x)) (vscale 4 (tV e1 x))) (tV e0 x)) (2 * dt)) F2 W2).
  assert (Y : weighted (r_time r) (fun x => energy_form s st al (vdiv (vadd (vsub (vscale 3 (tV e2 x)) (vscale 4 (tV e1 x))) (tV e0 x)) (2 * dt)) (tV e2 x)) <= 0).
  { apply X; [|exact So]. intros x. cbn [time_derivative].
    destruct F0 as [_ F0], F1 as [_ F1], F2 as [_ F2]. destruct (F0 x) as [A0 B0], (F1 x) as [A1 B1], (F2 x) as [A2 B2].
    apply (vderives_make 4 _ (fun eps => vdiv (vadd (vsub (vscale 3 (uU (u2 eps) x)) (vscale 4 (uU (u1 eps) x))) (uU (u0 eps) x)) (2 * dt))).
    - apply filter_forall. reflexivity.
    - intros eps. rewrite vdiv_length, vadd_length, vsub_length, !vscale_length, (proj1 (A0 eps)), (proj1 (A1 eps)), (proj1 (A2 eps)). reflexivity.
    - rewrite vdiv_length, vadd_length, vsub_length, !vscale_length, L0, L1, L2. reflexivity.
    - intros k K. rewrite vdiv_nth, vadd_nth, vsub_nth, !vscale_nth by (rewrite ?vsub_length, ?vscale_length, ?L0, ?L1, ?L2; reflexivity).
      apply (is_derive_ext (fun eps => / (2 * dt) * (3 * nth k (uU (u2 eps) x) 0 - 4 * nth k (uU (u1 eps) x) 0 + nth k (uU (u0 eps) x) 0))).
      { intros eps. rewrite vdiv_nth, vadd_nth, vsub_nth, !vscale_nth by (rewrite ?vsub_length, ?vscale_length, ?(proj1 (A0 eps)), ?(proj1 (A1 eps)), ?(proj1 (A2 eps)); reflexivity). match goal with |- ?x = ?y => change (@eq R x y) end. unfold Rdiv. ring. }
      unfold Rdiv. rewrite (Rmult_comm _ (/ (2 * dt))). apply is_derive_scal. apply @is_derive_plus; [apply @is_derive_minus|apply B0, K]; apply is_derive_scal; [apply B2, K|apply B1, K]. }
  rewrite (weighted_ext _ _ (fun x => / (2 * dt) * (3 * energy_form s st al (tV e2 x) (tV e2 x) + -4 * energy_form s st al (tV e2 x) (tV e1 x) + energy_form s st al (tV e2 x) (tV e0 x)))) in Y.
  2: { intros w x _.
       replace (vdiv (vadd (vsub (vscale 3 (tV e2 x)) (vscale 4 (tV e1 x))) (tV e0 x)) (2 * dt)) with (vadd (vsub (vscale (/ (2 * dt) * 3) (tV e2 x)) (vscale (/ (2 * dt) * 4) (tV e1 x))) (vscale (/ (2 * dt)) (tV e0 x))).
       - rewrite ef_linear, (ef_sym (tV e1 x)), (ef_sym (tV e0 x)) by trivial. ring.
       - apply (nth_ext _ _ 0 0); [rewrite vdiv_length, !vadd_length, !vsub_length, !vscale_length, L0, L1, L2; reflexivity|]. intros k _.
         rewrite vdiv_nth, !vadd_nth, !vsub_nth, !vscale_nth by (rewrite ?vsub_length, ?vscale_length, ?L0, ?L1, ?L2; reflexivity). unfold Rdiv. ring. }
  rewrite weighted_scale in Y.
  assert (Z : 3 * N e2 e2 + -4 * N e2 e1 + N e2 e0 <= 0).
  { unfold N. rewrite <- !weighted_scale, <- !weighted_plus. apply (Rmult_le_reg_l (/ (2 * dt))); [apply Rinv_0_lt_compat; lra|]. lra. }
  assert (Q : 0 <= (N e2 e2 + 4 * N e1 e1 + N e0 e0) + (-4 * N e2 e1 + 2 * N e2 e0 + -4 * N e1 e0)).
  { unfold N. rewrite <- !weighted_scale, <- !weighted_plus. apply weighted_nonneg; [exact Nt|]. intros w x _.
    assert (P : 0 <= energy_form s st al (vadd (vsub (vscale 1 (tV e2 x)) (vscale 2 (tV e1 x))) (vscale 1 (tV e0 x))) (vadd (vsub (vscale 1 (tV e2 x)) (vscale 2 (tV e1 x))) (vscale 1 (tV e0 x)))).
    { apply ef_pos. rewrite vadd_length, vsub_length, !vscale_length, L0, L1, L2. reflexivity. }
    rewrite ef_linear in P by trivial. rewrite !(ef_sym _ (vadd _ _)), !ef_linear in P by trivial.
    rewrite (ef_sym (tV e1 x) (tV e2 x)), (ef_sym (tV e0 x) (tV e2 x)), (ef_sym (tV e0 x) (tV e1 x)) in P. lra. }
  lra.
Qed.
End Steps.

(** Implicit Euler: the energy of a small disturbance never grows, whatever the time step, the mesh, the order of the elements and the
    Riemann solver, if the boundaries are far fields and walls of the uniform flow. *)
Theorem c77_euler : forall s m r bs ls st twin W dt al (fam : nat -> R -> unknowns) (e : nat -> test),
  1 < s_gamma s -> valid st -> length (st_u st) = 2%nat -> s_dim s = 2%nat -> s_law s = Inviscid -> 0 < dt -> 0 < al ->
  plane_mesh m (r_cbnd r) -> two_sided m (r_cbnd r) twin -> enclosed s m st (r_cbnd r) bs -> calms s st ls -> nonnegative (r_time r) -> test_space m r twin W ->
  (forall n, family s st (fam n) (e n) /\ W (e n)) ->
  (forall n, locally 0 (fun eps => solves s m r (edge_terms s m bs (fam (S n) eps)) ls (IE dt (uU (fam n eps))) W (fam (S n) eps))) ->
  forall n k, disturbance (s_gamma s) st al (r_time r) (e (n + k)%nat) <= disturbance (s_gamma s) st al (r_time r) (e n).
Proof.
  intros s m r bs ls st twin W dt al fam e G V Lu D2 Inv Dt Al Pm Tw En Ca Nt Ts F So n k. induction k as [|k IH]; [rewrite Nat.add_0_r; lra|].
  rewrite Nat.add_succ_r. eapply Rle_trans; [|exact IH].
  apply (euler_step s m r bs ls st twin W dt al G V Lu D2 Inv Dt Al Pm Tw En Ca Nt Ts (fam (n + k)%nat) (fam (S (n + k)))); try apply F. apply So.
Qed.
Print Assumptions c77_euler.

(** BDF2, started with two equal levels: the energy never exceeds twice the energy of the start. *)
Theorem c77_bdf2 : forall s m r bs ls st twin W dt al (fam : nat -> R -> unknowns) (e : nat -> test),
  1 < s_gamma s -> valid st -> length (st_u st) = 2%nat -> s_dim s = 2%nat -> s_law s = Inviscid -> 0 < dt -> 0 < al ->
  plane_mesh m (r_cbnd r) -> two_sided m (r_cbnd r) twin -> enclosed s m st (r_cbnd r) bs -> calms s st ls -> nonnegative (r_time r) -> test_space m r twin W ->
  (forall n, family s st (fam n) (e n) /\ W (e n)) ->
  (forall n, locally 0 (fun eps => solves s m r (edge_terms s m bs (fam (S n) eps)) ls (BDF dt (uU (fam n eps)) (uU (fam (pred n) eps))) W (fam (S n) eps))) ->
  forall n, disturbance (s_gamma s) st al (r_time r) (e n) <= 2 * disturbance (s_gamma s) st al (r_time r) (e 0%nat).
Proof.
  intros s m r bs ls st twin W dt al fam e G V Lu D2 Inv Dt Al Pm Tw En Ca Nt Ts F So n.
  set (N := fun a b => weighted (r_time r) (fun x => energy_form s st al (tV a x) (tV b x))).
  assert (L : forall k x, length (tV (e k) x) = 4%nat) by (intros k x; apply (Ts (e k) (proj2 (F k)))).
  assert (B : forall k, N (e k) (e k) + (4 * N (e k) (e k) - 4 * N (e k) (e (pred k)) + N (e (pred k)) (e (pred k))) <= 2 * N (e 0%nat) (e 0%nat)).
  { induction k as [|k IH]; [cbn [pred]; lra|]. eapply Rle_trans; [|exact IH]. cbn [pred].
    apply (bdf2_step s m r bs ls st twin W dt al G V Lu D2 Inv Dt Al Pm Tw En Ca Nt Ts (fam (pred k)) (fam k) (fam (S k))); try apply F. apply So. }
  assert (P : 0 <= 4 * N (e n) (e n) + -4 * N (e n) (e (pred n)) + N (e (pred n)) (e (pred n))).
  { unfold N. rewrite <- !weighted_scale, <- !weighted_plus. apply weighted_nonneg; [exact Nt|]. intros w x _.
    pose proof (ef_pos s st al G V Lu Al (vadd (vsub (vscale 2 (tV (e n) x)) (vscale 1 (tV (e (pred n)) x))) (vscale 0 (tV (e n) x)))
      ltac:(rewrite vadd_length, vsub_length, !vscale_length, !L; reflexivity)) as P.
    rewrite (ef_linear s st al G V Lu) in P by apply L. rewrite !(ef_sym s st al _ (vadd _ _)), !(ef_linear s st al G V Lu) in P by apply L.
    rewrite (ef_sym s st al (tV (e (pred n)) x) (tV (e n) x)) in P. lra. }
  pose proof (B n) as Bn. unfold N in *. rewrite <- !(disturbance_form s r st al G V) in *. lra.
Qed.
Print Assumptions c77_bdf2.

(** ** A contact wave leaves two elements *)

(** Two square elements, one above the other; points 0 and 5 inside, 1 and 6 right, 2 and 7 left, 3 and 8 top, 4 and 9 bottom. *)
Definition tower : mesh :=
  mk_mesh (fun x => x / 5)%nat (fun y => nth y [0; 1; 2; 3; 4; 0; 5; 6; 7; 3]%nat 8%nat) (fun y => nth (y mod 5) [[0; 0]; [1; 0]; [-1; 0]; [0; 1]; [0; -1]] [0; 0])
    (fun f => negb (f =? 3)%nat).
Definition below (y : nat) : nat := match y with 3%nat => 9%nat | 9%nat => 3%nat | _ => y end.
Definition tower_rules : rules :=
  let vol := [(1, 0%nat); (1, 5%nat)] in let bnd := [(1, 1%nat); (1, 2%nat); (1, 3%nat); (1, 4%nat); (1, 6%nat); (1, 7%nat); (1, 8%nat); (1, 9%nat)] in mk_rules vol bnd vol bnd vol.
Definition roe_air : settings := with_riemann air Roe.
Definition breeze : state := mk_state 1 [1; 0] 1.
(** The density is larger by [a]; velocity and pressure are those of the breeze. *)
Definition warmer (a : R) : state := mk_state (1 + a) [1; 0] 1.
Definition lists (a : R) : list R := [1 + a; 1 + a; 0; 5 / 2 + (1 + a) / 2].
Definition contact : list R := [1; 1; 0; 1 / 2].
Definition leftmost (y : nat) : bool := (y mod 5 =? 2)%nat.
Definition tower_edges : list (rule * edge) :=
  [([(1, 2%nat); (1, 7%nat)], FarEdge true (full_fields roe_air breeze)); ([(1, 1%nat); (1, 6%nat)], FarEdge false (full_fields roe_air breeze));
   ([(1, 4%nat); (1, 8%nat)], SlipEdge)].
Definition wave_unknowns (n : nat) (eps : R) : unknowns :=
  mk_unknowns (fun _ => lists (eps * (1 / 2) ^ n)) (fun y => lists (if leftmost y then 0 else eps * (1 / 2) ^ n))
    (fun _ => still).
Definition wave_rate (n : nat) : test :=
  mk_test (fun _ => vscale ((1 / 2) ^ n) contact) (fun _ => tabulate 4 2 (fun _ _ => 0)) (fun y => vscale (if leftmost y then 0 else (1 / 2) ^ n) contact).
(** Constants in both elements and on all facets. *)
Definition tower_tests (t : test) : Prop :=
  (forall x, length (tV t x) = 4%nat /\ length (tVhat t x) = 4%nat /\ tdV t x = tabulate 4 2 (fun _ _ => 0)) /\
  (forall x, (x < 10)%nat -> tV t x = tV t (x / 5 * 5)%nat) /\ single_valued below t.

Ltac each tac := repeat (apply f_equal2; [tac|]); reflexivity.

Lemma warmer_list a : -1 < a -> conservative_list (7 / 5) (warmer a) = lists a.
Proof.
  intros A. unfold conservative_list, q_rho_u, q_rho_E, q_E, q_Ei, q_rho_Ei, q_Ek, warmer, lists. cbn [st_rho st_u st_p map app inner].
  match goal with |- [_; ?x; ?y; ?z] = _ => assert (X : x = 1 + a) by ring; assert (Y : y = 0) by ring; assert (Z : z = 5 / 2 + (1 + a) / 2) by (field; lra) end.
  now rewrite X, Y, Z.
Qed.

Lemma lists_sub a b : vsub (lists a) (lists b) = vscale (a - b) contact.
Proof.
  unfold lists, contact. cbn -[Rplus Rmult Rminus Rdiv].
  each ltac:(solve [ring | field; lra]).
Qed.

Lemma contact_wave a b l n0 n1 : -1 < a -> unit2 [n0; n1] n0 n1 ->
  mvmul (wave (PP (7 / 5) (1 + a) 1 0 (q_c (7 / 5) (warmer a)) n0 n1) (QQ (7 / 5) (1 + a) 1 0 (q_c (7 / 5) (warmer a)) n0 n1) l) (vscale b contact) = vscale (l 1%nat * b) contact.
Proof.
  intros A N. assert (V : valid (warmer a)) by (split; cbn; lra).
  destruct (state_matrices roe_air (warmer a) 1 0 n0 n1 [n0; n1] ltac:(cbn; lra) V eq_refl N) as (Inv & _).
  change (s_gamma roe_air) with (7 / 5) in Inv. change (st_rho (warmer a)) with (1 + a) in Inv.
  apply (same_amplitudes _ _ _ _ Inv); [rewrite mvmul_length; reflexivity|reflexivity|].
  intros k K. rewrite wave_amplitude by assumption. unfold amplitude, contact, QQ, entry, mat4. four k K; cbn -[Rplus Rmult Rminus Rdiv q_c pow]; try (field; lra); ring.
Qed.

(** The fluxes on the four sides. *)
Lemma warmer_flux a n i : (i < 4)%nat -> -1 < a -> forall n0 n1, n = [n0; n1] -> normal_flux (7 / 5) (warmer a) n i = nth i [(1 + a) * n0; (1 + a) * n0 + n0; n1; (7 / 2 + (1 + a) / 2) * n0] 0.
Proof.
  intros I A n0 n1 ->. unfold normal_flux, euler_flux, q_rho_E, q_E, q_Ei, q_rho_Ei, q_Ek, delta. four i I; cbn -[Rplus Rmult Rminus Rdiv]; field; lra.
Qed.

Lemma same_flux a n0 n1 : -1 < a -> n0 * n0 + n1 * n1 = 1 ->
  get_convective_numerical_flux roe_air (lists a) (lists a) [n0; n1] = Ok [(1 + a) * n0; (1 + a) * n0 + n0; n1; (7 / 2 + (1 + a) / 2) * n0].
Proof.
  intros A N. assert (V : valid (warmer a)) by (split; cbn; lra).
  rewrite <- (warmer_list a A) at 2.
  rewrite (flux_value roe_air (warmer a) 1 0 n0 n1 [n0; n1] ltac:(cbn; lra) V eq_refl eq_refl (conj eq_refl N)).
  change (s_gamma roe_air) with (7 / 5). change (st_rho (warmer a)) with (1 + a). rewrite (warmer_list a A), lists_sub, contact_wave by (trivial; split; trivial). unfold four_list.
  rewrite !(warmer_flux a _ _) with (n0 := n0) (n1 := n1) by (trivial; lia). unfold contact. cbn -[Rplus Rmult Rminus Rdiv dissipation].
  f_equal. each ltac:(solve [ring | field; lra]).
Qed.

Lemma left_flux a : -1 < a -> get_convective_numerical_flux roe_air (lists a) (lists 0) [-1; 0] = Ok [- 1 + a; - 2 + a; 0; - 4 + a / 2].
Proof.
  intros A. assert (V : valid (warmer 0)) by (split; cbn; lra). assert (N : unit2 [-1; 0] (-1) 0) by (split; [reflexivity|ring]).
  rewrite <- (warmer_list 0 ltac:(lra)).
  rewrite (flux_value roe_air (warmer 0) 1 0 (-1) 0 [-1; 0] ltac:(cbn; lra) V eq_refl eq_refl N).
  change (s_gamma roe_air) with (7 / 5). change (st_rho (warmer 0)) with (1 + 0). rewrite (warmer_list 0 ltac:(lra)), lists_sub, contact_wave by (trivial; lra). unfold four_list.
  rewrite !(warmer_flux 0 _ _) with (n0 := -1) (n1 := 0) by (trivial; try lia; lra). unfold contact. change (s_riemann roe_air) with Roe. cbn -[Rplus Rmult Rminus Rdiv Rabs].
  replace (Rabs (1 * -1 + 0 * 0)) with 1 by (replace (1 * -1 + 0 * 0) with (-1) by ring; rewrite Rabs_left; lra).
  f_equal. each ltac:(solve [ring | field; lra]).
Qed.

Lemma breeze_fields : conservative_vector roe_air (full_fields roe_air breeze) = Ok (lists 0).
Proof.
  rewrite <- (warmer_list 0) by lra. replace (warmer 0) with breeze by (unfold warmer, breeze; f_equal; ring). reflexivity.
Qed.

Lemma vanish4 l : length l = 4%nat -> vanishes l -> l = [0; 0; 0; 0].
Proof. intros L Z. pose proof (Z 0%nat). pose proof (Z 1%nat). pose proof (Z 2%nat). pose proof (Z 3%nat). destruct l as [|a [|b [|c [|d [|q l]]]]]; try discriminate L. cbn in *. congruence. Qed.

Lemma breeze_sound : 1 < q_c (7 / 5) breeze.
Proof.
  assert (V : valid breeze) by (split; cbn; lra). pose proof (q_c_square (7 / 5) breeze ltac:(lra) V) as Sq. pose proof (q_c_pos (7 / 5) breeze ltac:(lra) V) as P. cbn [breeze st_p st_rho] in Sq.
  set (c := q_c (7 / 5) breeze) in *. destruct (Rlt_dec 1 c) as [|H]; [trivial|]. assert (c ^ 2 <= 1) by (cbn [pow]; nra). lra.
Qed.
Lemma breeze_speeds n0 : n0 = 1 \/ n0 = -1 -> forall j, (j < 4)%nat -> wave_speed (1 * n0 + 0 * 0) (q_c (7 / 5) breeze) j <> 0.
Proof. intros Hn j J. pose proof breeze_sound. destruct Hn as [-> | ->]; four j J; cbn [wave_speed]; lra. Qed.

Lemma left_edge a : farfield_residual roe_air (full_fields roe_air breeze) true (lists a) (lists 0) [-1; 0] = Ok [0; 0; 0; 0].
Proof.
  assert (V : valid (warmer 0)) by (split; cbn; lra). assert (N : unit2 [-1; 0] (-1) 0) by (split; [reflexivity|ring]).
  assert (Eb : warmer 0 = breeze) by (unfold warmer, breeze; f_equal; ring).
  rewrite <- (warmer_list 0) at 1 by lra.
  pose proof (farfield_value roe_air (warmer 0) 1 0 (-1) 0 [-1; 0] ltac:(cbn; lra) V eq_refl eq_refl N true _ _ (lists a) breeze_fields eq_refl eq_refl) as FV. change (s_gamma roe_air) with (7 / 5) in FV. rewrite FV. clear FV.
  change (s_gamma roe_air) with (7 / 5). change (st_rho (warmer 0)) with (1 + 0). rewrite (warmer_list 0) by lra. f_equal.
  destruct (state_matrices roe_air (warmer 0) 1 0 (-1) 0 [-1; 0] ltac:(cbn; lra) V eq_refl N) as (Inv & _).
  change (s_gamma roe_air) with (7 / 5) in Inv. change (st_rho (warmer 0)) with (1 + 0) in Inv.
  apply vanish4; [rewrite !vsub_length, !mvmul_length; reflexivity|].
  replace (lists a) with (vadd (lists 0) (vscale a contact)) by (unfold lists, contact; cbn -[Rplus Rmult Rminus Rdiv];
    each ltac:(solve [ring | field; lra])).
  apply (amplitudes_vanish _ _ _ Inv); [rewrite !vsub_length, !mvmul_length; reflexivity|]. intros k K.
  rewrite !amplitude_vsub by (rewrite ?vsub_length, ?mvmul_length; reflexivity). rewrite !wave_amplitude by assumption. rewrite amplitude_vadd by reflexivity.
  assert (Zc : amplitude (QQ (7 / 5) (1 + 0) 1 0 (q_c (7 / 5) (warmer 0)) (-1) 0) (vscale a contact) k * selected Outgoing (wave_speed (1 * -1 + 0 * 0) (q_c (7 / 5) (warmer 0)) k) = 0).
  { unfold amplitude, contact, QQ, entry, mat4. four k K; cbn -[Rplus Rmult Rminus Rdiv q_c pow selected]; try (field; lra).
    unfold selected. destruct (Rlt_dec 0 (1 * -1 + 0 * 0)); [lra|ring]. }
  assert (One : selected Outgoing (wave_speed (1 * -1 + 0 * 0) (q_c (7 / 5) (warmer 0)) k) + selected Incoming (wave_speed (1 * -1 + 0 * 0) (q_c (7 / 5) (warmer 0)) k) = 1).
  { rewrite Eb. pose proof (breeze_speeds (-1) ltac:(tauto) k K). unfold selected. repeat destruct (Rlt_dec _ _); lra. }
  set (o := selected Outgoing _) in *. set (q := selected Incoming _) in *. set (x := amplitude _ (lists 0) k). set (y := amplitude _ _ k) in *.
  replace q with (1 - o) by lra. transitivity (- (y * o)); [ring|lra].
Qed.

Lemma right_edge a : -1 < a -> farfield_residual roe_air (full_fields roe_air breeze) false (lists a) (lists a) [1; 0] = Ok [0; 0; 0; 0].
Proof.
  intros A. assert (V : valid (warmer a)) by (split; cbn; lra). assert (N : unit2 [1; 0] 1 0) by (split; [reflexivity|ring]).
  rewrite <- (warmer_list a A) at 2.
  pose proof (farfield_value roe_air (warmer a) 1 0 1 0 [1; 0] ltac:(cbn; lra) V eq_refl eq_refl N false _ _ (lists a) breeze_fields eq_refl eq_refl) as FV. change (s_gamma roe_air) with (7 / 5) in FV. rewrite FV. clear FV.
  change (s_gamma roe_air) with (7 / 5). change (st_rho (warmer a)) with (1 + a). rewrite (warmer_list a A), !lists_sub, !contact_wave by trivial. unfold contact. cbn -[Rplus Rmult Rminus Rdiv Rmin Rmax].
  rewrite (Rmin_right (1 * 1 + 0 * 0) 0) by lra.
  f_equal. each ltac:(solve [ring | field; lra]).
Qed.

Lemma wall_edge a n1 : -1 < a -> n1 = 1 \/ n1 = -1 -> inviscid_wall_residual roe_air (lists a) (lists a) [0; n1] = Ok [0; 0; 0; 0].
Proof.
  intros A N. unfold inviscid_wall_residual, inviscid_wall_state. destruct (fields_values roe_air (lists a)) as (F & -> & F1 & F2 & F3). cbn [bind].
  change (s_dim roe_air) with 2%nat in F2, F3. unfold density, eos_density, momentum, energy. rewrite F1, F2, F3. cbn [equation bind]. f_equal. unfold lists. cbn -[Rplus Rmult Rminus Rdiv].
  each ltac:(solve [ring | field; lra]).
Qed.

Ltac cases_of H := repeat match type of H with _ \/ _ => destruct H as [H|H] end; try contradiction; injection H as <- <-.

Definition tower_flux (a : R) (y : nat) : list R :=
  match (y mod 5)%nat with
  | 1%nat => [1 + a; 2 + a; 0; 4 + a / 2] | 2%nat => [- 1 + a; - 2 + a; 0; - 4 + a / 2] | 3%nat => [0; 0; 1; 0] | _ => [0; 0; -1; 0]
  end.
Lemma tower_flux_ok n eps w y : -1 < eps * (1 / 2) ^ n -> In (w, y) (r_cbnd tower_rules) ->
  convection_Fn roe_air tower (wave_unknowns n eps) y = Ok (tower_flux (eps * (1 / 2) ^ n) y).
Proof.
  intros A Hy. unfold convection_Fn. cbn [wave_unknowns uU uUhat tower normal]. set (a := eps * (1 / 2) ^ n) in *.
  cbn [tower_rules r_cbnd In] in Hy. cases_of Hy; unfold leftmost, tower_flux; cbn [Nat.modulo Nat.divmod fst snd Nat.sub Nat.eqb nth];
    first [exact (left_flux a A) | rewrite (same_flux a _ _ A) by ring; f_equal; each ltac:(solve [ring | field])].
Qed.

Lemma tower_edges_ok n eps q k w y : -1 < eps * (1 / 2) ^ n -> In (q, k) tower_edges -> In (w, y) q ->
  edge_vector roe_air tower (wave_unknowns n eps) k y = Ok [0; 0; 0; 0].
Proof.
  intros A Hq Hy. unfold edge_vector. cbn [wave_unknowns uU uUhat tower normal]. set (a := eps * (1 / 2) ^ n) in *.
  cbn [tower_edges In] in Hq. cases_of Hq; cbn [In] in Hy; cases_of Hy;
    unfold leftmost; cbn [Nat.modulo Nat.divmod fst snd Nat.sub Nat.eqb nth]; first [exact (left_edge a) | exact (right_edge a A) | apply wall_edge; [exact A|auto]].
Qed.

Lemma zero_entries : entries (tabulate 4 2 (fun _ _ => 0)) = [0; 0; 0; 0; 0; 0; 0; 0].
Proof. reflexivity. Qed.

Lemma inner_zeros l n : inner l (repeat 0 n) = 0.
Proof. revert n. induction l as [|x l IH]; intros [|n]; cbn [inner repeat]; try reflexivity. rewrite IH. ring. Qed.
Lemma inner_zeros_l l n : inner (repeat 0 n) l = 0.
Proof. revert n. induction l as [|x l IH]; intros [|n]; cbn [inner repeat]; try reflexivity. rewrite IH. ring. Qed.

Lemma tower_solves n eps : -1 < eps < 1 ->
  solves roe_air tower tower_rules (edge_terms roe_air tower tower_edges (wave_unknowns (S n) eps)) [] (IE (1 / 2) (uU (wave_unknowns n eps))) tower_tests (wave_unknowns (S n) eps).
Proof.
  intros Ep t (T & Tc & Ts).
  assert (Hn : 0 < (1 / 2) ^ n <= 1) by (split; [apply pow_lt; lra|apply (Rle_trans _ (1 ^ n)); [apply pow_incr; lra|rewrite pow1; lra]]).
  assert (Hs : (1 / 2) ^ S n = (1 / 2) ^ n / 2) by (cbn [pow]; field).
  assert (A : -1 < eps * (1 / 2) ^ S n) by (rewrite Hs; nra).
  assert (Vol : integral (r_cvol tower_rules) (fun x => let* F := convection_F roe_air (wave_unknowns (S n) eps) x in Ok (- inner (entries F) (entries (tdV t x)))) = Ok (weighted (r_cvol tower_rules) (fun _ => 0))).
  { apply integral_make. intros w x _. unfold convection_F. cbn [wave_unknowns uU].
    rewrite <- (warmer_list _ A). set (a := eps * (1 / 2) ^ S n) in *. assert (V : valid (warmer a)) by (split; cbn; lra).
    pose proof (fields4 roe_air (warmer a) 1 0 ltac:(cbn; lra) V eq_refl eq_refl) as F4. change (s_gamma roe_air) with (7 / 5) in F4. rewrite F4. cbn [bind].
    destruct (flux_entries roe_air (warmer a) 1 0 ltac:(cbn; lra) V eq_refl) as (F & -> & _). cbn [bind]. destruct (T x) as (_ & _ & ->). rewrite zero_entries. f_equal.
    change [0; 0; 0; 0; 0; 0; 0; 0] with (repeat 0 8). rewrite inner_zeros. ring. }
  assert (B1 : integral (r_cbnd tower_rules) (fun y => let* Fn := convection_Fn roe_air tower (wave_unknowns (S n) eps) y in Ok (inner Fn (tV t y))) =
    Ok (weighted (r_cbnd tower_rules) (fun y => inner (tower_flux (eps * (1 / 2) ^ S n) y) (tV t y)))).
  { apply integral_make. intros w y Hy. rewrite (tower_flux_ok (S n) eps w y A Hy). reflexivity. }
  assert (B2 : integral (r_cbnd tower_rules) (fun y => let* Fn := convection_Fn roe_air tower (wave_unknowns (S n) eps) y in Ok (- mask tower y * inner Fn (tVhat t y))) =
    Ok (weighted (r_cbnd tower_rules) (fun y => - mask tower y * inner (tower_flux (eps * (1 / 2) ^ S n) y) (tVhat t y)))).
  { apply integral_make. intros w y Hy. rewrite (tower_flux_ok (S n) eps w y A Hy). reflexivity. }
  assert (Bd : boundary_form (edge_terms roe_air tower tower_edges (wave_unknowns (S n) eps)) t = Ok 0).
  { pose proof (tower_edges_ok (S n) eps) as Te. revert Te. generalize tower_edges. intros bs Te. induction bs as [|[q k] bs IH]; [reflexivity|]. cbn [edge_terms map boundary_form b_rule b_vector fst snd].
    rewrite (integral_make q _ (fun _ => 0)).
    - cbn [bind]. rewrite weighted_zero by reflexivity. unfold edge_terms in IH. rewrite IH by (intros q' k' w y A' I J; apply (Te q' k' w y A'); [now right|exact J]). cbn [bind]. f_equal. ring.
    - intros w y Hy. rewrite (Te q k w y A (or_introl eq_refl) Hy). cbn [bind]. change [0; 0; 0; 0] with (repeat 0 4). now rewrite inner_zeros_l. }
  assert (Tm : time_form (IE (1 / 2) (uU (wave_unknowns n eps))) (r_time tower_rules) (wave_unknowns (S n) eps) t =
    Ok (weighted (r_time tower_rules) (fun x => inner (vscale (-2 * (eps * (1 / 2) ^ S n)) contact) (tV t x)))).
  { apply integral_make. intros w x _. cbn [time_derivative wave_unknowns uU]. rewrite lists_sub. f_equal. f_equal. unfold contact. cbn -[Rplus Rmult Rminus Rdiv pow].
    rewrite Hs. each ltac:(field). }
  unfold weak_form. change (s_law roe_air) with Inviscid. unfold convection_form. rewrite Vol, B1, B2, Bd, Tm. cbn [bind domain_form]. f_equal.
  set (a := eps * (1 / 2) ^ S n) in *. rewrite weighted_zero by reflexivity.
  assert (Tv : tVhat t 9%nat = tVhat t 3%nat) by exact (Ts 3%nat).
  pose proof (Tc 1%nat ltac:(lia)) as C1. pose proof (Tc 2%nat ltac:(lia)) as C2. pose proof (Tc 3%nat ltac:(lia)) as C3. pose proof (Tc 4%nat ltac:(lia)) as C4.
  pose proof (Tc 6%nat ltac:(lia)) as C6. pose proof (Tc 7%nat ltac:(lia)) as C7. pose proof (Tc 8%nat ltac:(lia)) as C8. pose proof (Tc 9%nat ltac:(lia)) as C9.
  cbn in C1, C2, C3, C4, C6, C7, C8, C9.
  unfold tower_rules, mask, tower, tower_flux, contact. cbn [r_cbnd r_time weighted facet outer_facet nth negb Nat.eqb Nat.modulo Nat.divmod fst snd Nat.sub].
  rewrite C1, C2, C3, C4, C6, C7, C8, C9, Tv.
  destruct (T 0%nat) as (L0 & _ & _). destruct (T 5%nat) as (L5 & _ & _). destruct (T 3%nat) as (_ & L3 & _).
  destruct (tV t 0%nat) as [|p0 [|p1 [|p2 [|p3 [|p4 p]]]]]; try discriminate L0. destruct (tV t 5%nat) as [|q0 [|q1 [|q2 [|q3 [|q4 q]]]]]; try discriminate L5.
  destruct (tVhat t 3%nat) as [|r0 [|r1 [|r2 [|r3 [|r4 r]]]]]; try discriminate L3. cbn -[Rplus Rmult Rminus Rdiv].
  field.
Qed.

Lemma tabulate_ext n k f h : (forall i j, (i < n)%nat -> (j < k)%nat -> f i j = h i j) -> tabulate n k f = tabulate n k h.
Proof.
  intros E. unfold tabulate. f_equal. rewrite !flat_map_concat_map. f_equal. apply map_ext_in. intros i I. apply in_seq in I. apply map_ext_in. intros j J. apply in_seq in J. apply E; lia.
Qed.

Lemma tower_space : test_space tower tower_rules below tower_tests.
Proof.
  intros t (T & Tc & Ts).
  assert (Wf : well_formed 2 t) by (intros x; destruct (T x) as (A & B & ->); rewrite A, B; repeat split).
  split; [exact Wf|]. split; [exact Ts|]. split.
  - intros k l j K L J.
    assert (Z : forall x k' j', (k' < 4)%nat -> (j' < 2)%nat -> entry (tdV t x) k' j' = 0) by (intros x k' j' K' J'; destruct (T x) as (_ & _ & ->); now rewrite entry_tabulate).
    cbn [tower_rules r_cvol r_cbnd weighted tower normal Nat.modulo Nat.divmod fst snd Nat.sub nth]. rewrite !Z by assumption.
    rewrite (Tc 1%nat), (Tc 2%nat), (Tc 3%nat), (Tc 4%nat), (Tc 6%nat), (Tc 7%nat), (Tc 8%nat), (Tc 9%nat) by lia. cbn [Nat.div Nat.divmod fst Nat.mul Nat.add].
    destruct j as [|[|j]]; [| |lia]; cbn [nth]; ring.
  - intros H K Sh Sk. destruct Sh as (R4 & C4 & _). split; [|split].
    + intros x. cbn [mixed tV tVhat tdV]. rewrite !mvmul_length, R4. destruct (Sk (facet tower x)) as (-> & _). split; [reflexivity|]. split; [reflexivity|].
      destruct (T x) as (_ & _ & ->). unfold mmul. rewrite R4, C4. change (cols (tabulate 4 2 (fun _ _ => 0))) with 2%nat. apply tabulate_ext. intros i j I J.
      cbn [seq map rsum fold_right]. rewrite !entry_tabulate by lia. ring.
    + intros x X. cbn [mixed tV]. now rewrite Tc.
    + intros y. cbn [mixed tVhat]. rewrite Ts. replace (facet tower (below y)) with (facet tower y); [reflexivity|].
      do 10 (destruct y as [|y]; [reflexivity|]). reflexivity.
Qed.

Lemma tower_family n : family roe_air breeze (wave_unknowns n) (wave_rate n).
Proof.
  assert (B : lists 0 = conservative_list (s_gamma roe_air) breeze).
  { change (s_gamma roe_air) with (7 / 5). rewrite <- (warmer_list 0) by lra. replace (warmer 0) with breeze by (unfold warmer, breeze; f_equal; ring). reflexivity. }
  split.
  - intros x. cbn [wave_unknowns uU uUhat]. rewrite <- B, Rmult_0_l. split; [reflexivity|]. now destruct (leftmost x).
  - intros x. split; [intros eps; split; reflexivity|].
    assert (Dl : forall h k, (k < 4)%nat -> is_derive (fun eps => nth k (lists (eps * h)) 0) 0 (nth k (vscale h contact) 0)).
    { intros h k K. unfold lists, contact. four k K; cbn [nth vscale map]; auto_derive; trivial; field. }
    intros k K. cbn [wave_unknowns wave_rate uU uUhat tV tVhat]. split; [now apply Dl|]. destruct (leftmost x); [|now apply Dl].
    apply (is_derive_ext (fun eps => nth k (lists (eps * 0)) 0)); [intros eps; now rewrite Rmult_0_r|]. now apply Dl.
Qed.

Lemma tower_enclosed : enclosed roe_air tower breeze (r_cbnd tower_rules) tower_edges.
Proof.
  split.
  - cbn. apply NoDup_Permutation.
    + repeat constructor; cbn [In]; intuition discriminate.
    + repeat constructor; cbn [In]; intuition discriminate.
    + intros x. cbn [In]. tauto.
  - exists (fun f => match f with 2%nat | 6%nat => FarEdge true (full_fields roe_air breeze) | 1%nat | 5%nat => FarEdge false (full_fields roe_air breeze) | _ => SlipEdge end).
    exists (fun f => match f with 2%nat | 6%nat => [-1; 0] | 1%nat | 5%nat => [1; 0] | 4%nat => [0; -1] | _ => [0; 1] end).
    assert (Fb : conservative_vector roe_air (full_fields roe_air breeze) = Ok (conservative_list (s_gamma roe_air) breeze)) by reflexivity.
    assert (Sp : forall n0, n0 = 1 \/ n0 = -1 -> forall j, (j < 4)%nat -> wave_speed (inner (st_u breeze) [n0; 0]) (q_c (s_gamma roe_air) breeze) j <> 0).
    { intros n0 Hn j J. cbn [breeze st_u inner]. rewrite Rplus_0_r. now apply breeze_speeds. }
    intros q k w y Hq Hy. cbn [tower_edges In] in Hq. cases_of Hq; cbn [In] in Hy; cases_of Hy;
      (split; [reflexivity|]; split; [reflexivity|]); cbn [suits]; (split; [first [exact Fb | cbn; ring]|first [apply Sp; auto | discriminate]]).
Qed.

Lemma tower_energy n al : disturbance (7 / 5) breeze al (r_time tower_rules) (wave_rate n) = al * (1 / 4) ^ n.
Proof.
  assert (C : 0 < q_c (7 / 5) breeze) by (pose proof breeze_sound; lra).
  replace ((1 / 4) ^ n) with ((1 / 2) ^ n * (1 / 2) ^ n) by (rewrite <- Rpow_mult_distr; f_equal; field). set (h := (1 / 2) ^ n).
  unfold disturbance. cbn [tower_rules r_time weighted wave_rate tV]. unfold disturbance_energy, d_velocity, d_pressure, d_density, contact. fold h. set (c := q_c (7 / 5) breeze) in *.
  cbn [breeze st_rho st_u nth vscale map Nat.add]. field. lra.
Qed.

(** The contact wave leaves the two elements through the right boundary: its energy is divided by four in each step. *)
Example c77_example :
  (forall al n k, 0 < al -> disturbance (7 / 5) breeze al (r_time tower_rules) (wave_rate (n + k)) <= disturbance (7 / 5) breeze al (r_time tower_rules) (wave_rate n)) /\
  (forall al n, disturbance (7 / 5) breeze al (r_time tower_rules) (wave_rate n) = al * (1 / 4) ^ n).
Proof.
  split; [|intros; apply tower_energy]. intros al n k Al.
  refine (c77_euler roe_air tower tower_rules tower_edges [] breeze below tower_tests (1 / 2) al wave_unknowns wave_rate _ _ eq_refl eq_refl eq_refl _ Al _ _ tower_enclosed _ _ tower_space _ _ n k).
  - cbn. lra.
  - split; cbn; lra.
  - lra.
  - split.
    + intros w y Hy. cbn [tower_rules r_cbnd In] in Hy. cases_of Hy; lra.
    + intros w y Hy. cbn [tower_rules r_cbnd In] in Hy. cases_of Hy; do 2 eexists; (split; [reflexivity|ring]).
  - split.
    + apply perm_swap.
    + intros w y Hy. cbn in Hy. cases_of Hy; cbn; (apply f_equal2; [ring|]; apply f_equal2; [ring|reflexivity]).
  - intros l [].
  - intros w x Hx. cbn [tower_rules r_time In] in Hx. cases_of Hx; lra.
  - intros m. split; [apply tower_family|]. split; [|split].
    + intros x. repeat split.
    + intros x _. reflexivity.
    + intros y. cbn [wave_rate tVhat]. replace (leftmost (below y)) with (leftmost y); [reflexivity|]. do 10 (destruct y as [|y]; [reflexivity|]). reflexivity.
  - intros m. exists (mkposreal 1 Rlt_0_1). intros eps He. apply tower_solves. unfold ball in He. cbn in He. unfold AbsRing_ball, abs, minus, plus, opp in He. cbn in He. apply Rabs_def2 in He. lra.
Qed.
