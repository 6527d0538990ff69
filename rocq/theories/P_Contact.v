(** C86: a flow of uniform velocity and pressure only transports its density. *)
From Coq Require Import Reals String List Arith Bool Lia Lra.
From Verif Require Import Base M_Bla M_Flow M_Formulation M_Weak S_Flow S_Chars S_Stress S_Formulation S_Weak S_Positive L_Flow L_Formulation L_Weak L_Turn L_Curve P_Eos P_Chars P_Jacobian P_Split P_Riemann P_Boundary P_Stress P_Weak P_Walls P_Unknowns P_Trace P_Uniform P_Positive.
From Verif Require Import S_Formulation S_Weak S_Contact.
Import ListNotations.
Open Scope R_scope.
Open Scope list_scope.

(** ** Parcels *)

Lemma carries_first v : carries v 0 = 1.
Proof. reflexivity. Qed.

Lemma carries_momentum v i : (i < length v)%nat -> carries v (i + 1) = nth i v 0.
Proof. intros I. unfold carries. rewrite Nat.add_1_r. cbn [nth]. apply app_nth1, I. Qed.

Lemma carries_last v : carries v (length v + 1) = inner v v / 2.
Proof. unfold carries. rewrite Nat.add_1_r. cbn [nth]. rewrite app_nth2, Nat.sub_diag by lia. reflexivity. Qed.

(** Component [k] of the unknowns is linear in the density. *)
Definition rest (g : R) (d : nat) (p : R) (k : nat) : R := if (k =? d + 1)%nat then p / (g - 1) else 0.

Lemma parcel_nth g v p rho k : 1 < g -> 0 < rho -> (k < length v + 2)%nat ->
  nth k (conservative_list g (parcel v p rho)) 0 = rho * carries v k + rest g (length v) p k.
Proof.
  intros G P K. rewrite conservative_list_nth by exact K. unfold conservative, parcel, rest. cbn [st_u st_rho st_p].
  destruct (Nat.eq_dec k 0) as [->|K0].
  { replace (0 =? length v + 1)%nat with false by (symmetry; apply Nat.eqb_neq; lia). cbn [Nat.eqb]. rewrite carries_first. ring. }
  replace (k =? 0)%nat with false by (symmetry; apply Nat.eqb_neq; lia).
  destruct (Nat.eq_dec k (length v + 1)) as [->|K1].
  - rewrite Nat.eqb_refl. replace (length v + 1 <=? length v)%nat with false by (symmetry; apply Nat.leb_gt; lia). rewrite carries_last.
    unfold q_rho_E, q_E, q_Ei, q_rho_Ei, q_Ek. cbn [st_u st_rho st_p]. field. lra.
  - replace (k =? length v + 1)%nat with false by (symmetry; apply Nat.eqb_neq; lia). replace (k <=? length v)%nat with true by (symmetry; apply Nat.leb_le; lia).
    replace (carries v k) with (nth (k - 1) v 0); [ring|]. replace k with (k - 1 + 1)%nat at 2 by lia. symmetry. apply carries_momentum. lia.
Qed.

(** The part of the flux that does not depend on the density. *)
Definition push (g : R) (v : list R) (p : R) (i j : nat) : R :=
  if (i =? 0)%nat then 0 else if (i <=? length v)%nat then p * delta (i - 1) j else (p / (g - 1) + p) * nth j v 0.

Lemma parcel_flux g v p rho i j : 1 < g -> 0 < rho -> (i < length v + 2)%nat ->
  euler_flux g (length v) (parcel v p rho) i j = rho * carries v i * nth j v 0 + push g v p i j.
Proof.
  intros G P I. unfold euler_flux, push, parcel. cbn [st_u st_rho st_p]. destruct (Nat.eq_dec i 0) as [->|I0]; [cbn [Nat.eqb]; rewrite carries_first; ring|].
  replace (i =? 0)%nat with false by (symmetry; apply Nat.eqb_neq; lia). destruct (i <=? length v)%nat eqn:L.
  - apply Nat.leb_le in L. replace (carries v i) with (nth (i - 1) v 0); [ring|]. replace i with (i - 1 + 1)%nat at 2 by lia. symmetry. apply carries_momentum. lia.
  - apply Nat.leb_gt in L. replace i with (length v + 1)%nat by lia. rewrite carries_last. unfold q_rho_E, q_E, q_Ei, q_rho_Ei, q_Ek. cbn [st_u st_rho st_p]. field. lra.
Qed.

Lemma parcel_valid v p rho : 0 < p -> 0 < rho -> valid (parcel v p rho).
Proof. intros P Q. split; assumption. Qed.

(** ** The numerical flux between two parcels *)

(** A jump of the density is damped like a wave that moves with the gas, and only the density jumps along it. *)
Theorem c86_flux : forall s v p rho rhohat n, 1 < s_gamma s -> 0 < p -> 0 < rho -> 0 < rhohat -> length v = s_dim s -> length n = s_dim s -> inner n n = 1 ->
  s_dim s = 2%nat \/ s_riemann s = LaxFriedrich \/ s_riemann s = HLL ->
  exists f, get_convective_numerical_flux s (conservative_list (s_gamma s) (parcel v p rho)) (conservative_list (s_gamma s) (parcel v p rhohat)) n = Ok f /\
    length f = (s_dim s + 2)%nat /\
    forall i, (i < s_dim s + 2)%nat -> nth i f 0 =
      (rhohat * inner v n + dissipation (s_riemann s) (inner v n) (q_c (s_gamma s) (parcel v p rhohat)) 1 * (rho - rhohat)) * carries v i
      + total (s_dim s) (fun j => push (s_gamma s) v p i j * nth j n 0).
Proof.
  intros s v p rho rhohat n G Pp Pr Ph Lv Ln N1 Rs. set (st := parcel v p rhohat). assert (V : valid st) by (apply parcel_valid; assumption).
  set (U := conservative_list (s_gamma s) (parcel v p rho)).
  destruct (flux_exists s st U n G V Lv Ln Rs) as [f Ef]. exists f. split; [exact Ef|].
  assert (LU : length U = (s_dim s + 2)%nat) by (unfold U; rewrite conservative_list_length; cbn [parcel st_u]; lia).
  assert (LS : length (conservative_list (s_gamma s) st) = (s_dim s + 2)%nat) by (rewrite conservative_list_length; unfold st; cbn [parcel st_u]; lia).
  assert (NF : forall i, (i < s_dim s + 2)%nat -> normal_flux (s_gamma s) st n i = rhohat * inner v n * carries v i + total (s_dim s) (fun j => push (s_gamma s) v p i j * nth j n 0)).
  { intros i I. unfold normal_flux. change (st_u st) with v. rewrite Lv.
    rewrite (total_ext _ (fun j => rhohat * carries v i * (nth j v 0 * nth j n 0) + push (s_gamma s) v p i j * nth j n 0)).
    - rewrite total_plus, total_scale. rewrite (inner_total v n) by lia. rewrite Lv. ring.
    - intros j J. unfold st. rewrite <- Lv. rewrite parcel_flux by (trivial; lia). ring. }
  assert (J : forall i, (i < s_dim s + 2)%nat -> nth i U 0 - nth i (conservative_list (s_gamma s) st) 0 = (rho - rhohat) * carries v i).
  { intros i I. unfold U, st. rewrite !parcel_nth by (trivial; lia). ring. }
  set (c := q_c (s_gamma s) st). set (un := inner v n). set (a := dissipation (s_riemann s) un c 1).
  assert (Sc : s_riemann s = LaxFriedrich \/ s_riemann s = HLL -> length f = (s_dim s + 2)%nat /\ forall i, (i < s_dim s + 2)%nat -> nth i f 0 = normal_flux (s_gamma s) st n i + a * (nth i U 0 - nth i (conservative_list (s_gamma s) st) 0)).
  { intros Ri. split.
    - assert (Inv : exists tau, get_convective_stabilisation_matrix s false (full_fields s st) n = Ok tau) by (unfold get_convective_stabilisation_matrix; destruct Ri as [-> | ->]; eexists; reflexivity).
      destruct Inv as [tau Ht]. exact (proj1 (numerical_flux_entries s st U n f tau G V Lv Ln Ef Ht)).
    - pose proof (flux_entries s st U n f G V Lv Ln LU Ri Ef) as Fe. cbv zeta in Fe. intros i I. rewrite (Fe i I). f_equal. unfold a, un, c. change (st_u st) with v. destruct Ri as [-> | ->]; reflexivity. }
  assert (All : length f = (s_dim s + 2)%nat /\ forall i, (i < s_dim s + 2)%nat -> nth i f 0 = normal_flux (s_gamma s) st n i + a * (nth i U 0 - nth i (conservative_list (s_gamma s) st) 0)).
  { destruct Rs as [D2|Ri]; [|exact (Sc Ri)]. rewrite D2 in Lv, Ln, LU, LS.
    destruct (two_entries _ Lv) as (ux & uy & Eu). destruct (two_entries _ Ln) as (n0 & n1 & En).
    assert (N : unit2 n n0 n1) by (split; [exact En|]; rewrite En in N1; cbn in N1; lra).
    assert (Eu' : st_u st = [ux; uy]) by exact Eu.
    rewrite (flux_value s st ux uy n0 n1 n G V Eu' D2 N) in Ef. apply ok_inj in Ef. subst f. rewrite D2. split; [reflexivity|]. intros i I. rewrite four_list_nth by exact I. f_equal.
    assert (Eun : ux * n0 + uy * n1 = un) by (unfold un; rewrite Eu, En; cbn; ring). rewrite Eun. fold c.
    pose proof (waves_inverse s st ux uy n0 n1 n G V Eu' N) as Inv. unfold right_waves, left_waves in Inv. fold c in Inv.
    assert (Lj : length (vsub U (conservative_list (s_gamma s) st)) = 4%nat) by (rewrite vsub_length, LU, LS; reflexivity).
    assert (ED : vsub U (conservative_list (s_gamma s) st) = [rho - rhohat; (rho - rhohat) * ux; (rho - rhohat) * uy; (rho - rhohat) * (ux * ux + uy * uy) / 2]).
    { apply (nth_ext _ _ 0 0); [exact Lj|]. rewrite Lj. intros k K. rewrite vsub_nth by congruence. rewrite J by lia. rewrite Eu. four k K; unfold carries; cbn; field. }
    transitivity (nth i (vscale a (vsub U (conservative_list (s_gamma s) st))) 0); [|rewrite vscale_nth, vsub_nth by congruence; reflexivity].
    f_equal. apply (same_amplitudes _ _ _ _ Inv); [rewrite mvmul_length; reflexivity|rewrite vscale_length; exact Lj|]. intros k K. rewrite wave_amplitude by assumption.
    assert (As : amplitude (QQ (s_gamma s) (st_rho st) ux uy c n0 n1) (vscale a (vsub U (conservative_list (s_gamma s) st))) k = a * amplitude (QQ (s_gamma s) (st_rho st) ux uy c n0 n1) (vsub U (conservative_list (s_gamma s) st)) k).
    { unfold amplitude. rewrite <- total_scale. apply total_ext. intros j _. rewrite vscale_nth. ring. }
    rewrite As. pose proof (q_c_pos _ _ G V) as C0. fold c in C0. assert (R0 : st_rho st <> 0) by (unfold st; cbn; lra). rewrite ED.
    four k K.
    - replace (amplitude _ _ 0) with 0; [ring|]. unfold amplitude. cbn. field; exact R0.
    - reflexivity.
    - replace (amplitude _ _ 2) with 0; [ring|]. unfold amplitude. cbn. field; first [exact R0|lra].
    - replace (amplitude _ _ 3) with 0; [ring|]. unfold amplitude. cbn. field; exact R0. }
  destruct All as [Lf Hf]. split; [exact Lf|]. intros i I. rewrite Hf, NF, J by exact I. unfold a, un, c. ring.
Qed.
Print Assumptions c86_flux.

(** ** The whole problem *)

Section Drift.
Variables (s : settings) (m : mesh) (r : rules) (h : history) (v : list R) (p : R) (rho rhohat : nat -> R) (u : unknowns) (twin : nat -> nat) (t : test).
Hypothesis G : 1 < s_gamma s.
Hypothesis Pp : 0 < p.
Hypothesis Pr : forall x, 0 < rho x.
Hypothesis Ph : forall x, 0 < rhohat x.
Hypothesis Lv : length v = s_dim s.
Hypothesis Dr : drifts s v p rho rhohat u.
Hypothesis Nl : unit_normals (s_dim s) m (r_cbnd r).
Hypothesis Gs : gauss (s_dim s) m (r_cvol r) (r_cbnd r) t.
Hypothesis Tw : two_sided m (r_cbnd r) twin.
Hypothesis Wf : well_formed (s_dim s) t.
Hypothesis Sv : single_valued twin t.
Hypothesis Rs : s_dim s = 2%nat \/ s_riemann s = LaxFriedrich \/ s_riemann s = HLL.

Notation d := (s_dim s).
Notation K := (push (s_gamma s) v p).
Notation phi := (mass_flux s m v p rho rhohat).
Notation a := (fun x => along (s_dim s) v (tV t x)).
Notation da := (fun x => along_gradient (s_dim s) v (tdV t x)).
Notation ah := (fun y => along (s_dim s) v (tVhat t y)).

Lemma drift_flux w y : In (w, y) (r_cbnd r) -> exists f, convection_Fn s m u y = Ok f /\
  forall l, length l = (d + 2)%nat -> inner f l = phi y * along d v l + total (d + 2) (fun k => total d (fun j => K k j * nth j (normal m y) 0) * nth k l 0).
Proof.
  intros I. destruct (Nl w y I) as [Ln N1]. destruct (c86_flux s v p (rho y) (rhohat y) (normal m y) G Pp (Pr y) (Ph y) Lv Ln N1 Rs) as (f & Ef & Lf & Hf).
  exists f. unfold convection_Fn. rewrite (proj1 (Dr y)), (proj2 (Dr y)). split; [exact Ef|]. intros l Ll. rewrite inner_total by congruence. rewrite Lf. unfold along.
  rewrite <- total_scale, <- total_plus. apply total_ext. intros k Kk. rewrite Hf by exact Kk. unfold mass_flux. ring.
Qed.

Lemma drift_convection : convection_form s m (r_cvol r) (r_cbnd r) u t = Ok (
  - weighted (r_cvol r) (fun x => rho x * total d (fun j => nth j v 0 * da x j))
  + weighted (r_cbnd r) (fun y => phi y * a y) - weighted (r_cbnd r) (fun y => mask m y * (phi y * ah y))).
Proof.
  unfold convection_form.
  rewrite (integral_make (r_cvol r) _ (fun x => -1 * (rho x * total d (fun j => nth j v 0 * da x j)) + -1 * total (d + 2) (fun k => total d (fun j => K k j * entry (tdV t x) k j)))).
  2:{ intros w x _. assert (V : valid (parcel v p (rho x))) by (apply parcel_valid; auto).
      unfold convection_F. rewrite (proj1 (Dr x)), (fields_ok s (parcel v p (rho x)) G V Lv). cbn [bind].
      assert (EF : exists F, get_convective_flux s false (full_fields s (parcel v p (rho x))) = Ok F) by (eexists; reflexivity). destruct EF as [F EF]. rewrite EF. cbn [bind]. f_equal.
      destruct (c45_flux s false (parcel v p (rho x)) _ F G V (full_describes s _) ltac:(discriminate) EF) as (RF & CF & LF & HF). cbn [parcel st_u] in RF, CF, LF, HF. rewrite Lv in RF, CF, LF.
      destruct (Wf x) as (_ & _ & R1 & C1 & L1). rewrite (inner_double (d + 2) d F (tdV t x)) by assumption. unfold along_gradient.
      rewrite (total_ext (fun i => total d (fun j => entry F i j * entry (tdV t x) i j))
        (fun i => rho x * total d (fun j => nth j v 0 * (carries v i * entry (tdV t x) i j)) + total d (fun j => K i j * entry (tdV t x) i j))).
      - rewrite total_plus, total_scale. rewrite (P_Uniform.total_swap (d + 2) d).
        rewrite (total_ext (fun j => total (d + 2) (fun i => nth j v 0 * (carries v i * entry (tdV t x) i j))) (fun j => nth j v 0 * total (d + 2) (fun k => carries v k * entry (tdV t x) k j)))
          by (intros j _; now rewrite total_scale). ring.
      - intros i I. rewrite <- total_scale, <- total_plus. apply total_ext. intros j J. rewrite HF by (rewrite Lv; assumption).
        rewrite parcel_flux by (trivial; rewrite Lv; assumption). ring. }
  cbn [bind].
  rewrite (integral_make (r_cbnd r) _ (fun y => phi y * a y + total (d + 2) (fun k => total d (fun j => K k j * nth j (normal m y) 0) * nth k (tV t y) 0))).
  2:{ intros w y I. destruct (drift_flux w y I) as (f & -> & Hf). cbn [bind]. f_equal. apply Hf, Wf. }
  cbn [bind].
  rewrite (integral_make (r_cbnd r) _ (fun y => -1 * (mask m y * (phi y * ah y)) + -1 * (mask m y * total (d + 2) (fun k => total d (fun j => K k j * nth j (normal m y) 0) * nth k (tVhat t y) 0)))).
  2:{ intros w y I. destruct (drift_flux w y I) as (f & -> & Hf). cbn [bind]. f_equal. rewrite Hf by apply Wf. ring. }
  cbn [bind]. f_equal. rewrite !weighted_plus, !weighted_scale.
  pose proof (constant_flux s m twin t (r_cvol r) (r_cbnd r) Gs Tw Sv K) as C. lra.
Qed.

Lemma drift_time : positive_history h -> time_form (levels s v p h) (r_time r) u t = Ok (weighted (r_time r) (fun x => density_rate h rho x * a x)).
Proof.
  intros Hp. unfold time_form. apply integral_make. intros w x _. f_equal.
  assert (LU : forall q, length (conservative_list (s_gamma s) (parcel v p q)) = (d + 2)%nat) by (intros q; rewrite conservative_list_length; cbn [parcel st_u]; lia).
  assert (Ll : levels_have (d + 2) (levels s v p h)) by (destruct h; intros y; cbn [levels levels_have]; [apply LU|split; apply LU]).
  assert (Lt : length (time_derivative (levels s v p h) (uU u x) x) = (d + 2)%nat).
  { rewrite (proj1 (Dr x)). destruct h; cbn [levels time_derivative]; unfold vdiv; rewrite ?map_length, ?vadd_length, ?vsub_length, ?vscale_length, ?LU, ?Nat.min_id; reflexivity. }
  rewrite inner_total by (rewrite Lt; symmetry; apply Wf). rewrite Lt. unfold along. rewrite <- total_scale. apply total_ext. intros k Kk.
  rewrite (derivative_rate (d + 2)) by (trivial; rewrite (proj1 (Dr x)); apply LU).
  destruct h as [dt n|dt n nm1]; cbn [levels rate density_rate positive_history] in *; rewrite (proj1 (Dr x)), !parcel_nth by (trivial; try apply Hp; rewrite Lv; assumption); unfold Rdiv; ring.
Qed.
End Drift.

(** Every test function: the residual of the flow equations is the residual of the transport of the density, tested with
    what the test function sees of the transported mass, momentum and energy. *)
Theorem c86_form : forall s m r bs h v p rho rhohat u twin t, 1 < s_gamma s -> s_law s = Inviscid -> 0 < p -> (forall x, 0 < rho x) -> (forall x, 0 < rhohat x) ->
  positive_history h -> length v = s_dim s -> drifts s v p rho rhohat u -> unit_normals (s_dim s) m (r_cbnd r) ->
  gauss (s_dim s) m (r_cvol r) (r_cbnd r) t -> two_sided m (r_cbnd r) twin -> well_formed (s_dim s) t -> single_valued twin t ->
  s_dim s = 2%nat \/ s_riemann s = LaxFriedrich \/ s_riemann s = HLL ->
  (forall b w y, In b bs -> In (w, y) (b_rule b) -> exists f, b_vector b y = Ok f /\ vanishes f) ->
  weak_form s m r bs [] (levels s v p h) u t =
  Ok (transport s m r h v p rho rhohat (fun x => along (s_dim s) v (tV t x)) (fun x => along_gradient (s_dim s) v (tdV t x)) (fun y => along (s_dim s) v (tVhat t y))).
Proof.
  intros s m r bs h v p rho rhohat u twin t G Law Pp Pr Ph Hp Lv Dr Nl Gs Tw Wf Sv Rs Hb. unfold weak_form.
  rewrite (drift_convection s m r v p rho rhohat u twin t G Pp Pr Ph Lv Dr Nl Gs Tw Wf Sv Rs). cbn [bind]. rewrite Law. cbn [bind].
  assert (Bz : boundary_form bs t = Ok 0).
  { clear - Hb. induction bs as [|b bs IH]; [reflexivity|]. cbn [boundary_form]. rewrite (integral_make (b_rule b) _ (fun _ => 0)).
    - rewrite IH by (intros b' w y I J; apply (Hb b' w y); [now right|exact J]). cbn [bind]. rewrite weighted_zero by reflexivity. f_equal. ring.
    - intros w y I. destruct (Hb b w y (or_introl eq_refl) I) as (q & -> & Z). cbn [bind]. f_equal. now apply inner_nil. }
  rewrite Bz. cbn [bind domain_form]. rewrite (drift_time s r h v p rho rhohat u t G Pr Lv Dr Wf Rs Hp). cbn [bind]. f_equal. unfold transport. ring.
Qed.
Print Assumptions c86_form.

(** So a flow of uniform velocity and pressure solves the discrete problem of a time step exactly if its density solves the
    discrete transport problem: no pressure waves come from jumps of the density. *)
Theorem c86_solves : forall s m r bs h v p rho rhohat u twin (W : test -> Prop), 1 < s_gamma s -> s_law s = Inviscid -> 0 < p -> (forall x, 0 < rho x) -> (forall x, 0 < rhohat x) ->
  positive_history h -> length v = s_dim s -> drifts s v p rho rhohat u -> unit_normals (s_dim s) m (r_cbnd r) -> two_sided m (r_cbnd r) twin ->
  (forall t, W t -> gauss (s_dim s) m (r_cvol r) (r_cbnd r) t /\ well_formed (s_dim s) t /\ single_valued twin t) ->
  s_dim s = 2%nat \/ s_riemann s = LaxFriedrich \/ s_riemann s = HLL ->
  (forall b w y, In b bs -> In (w, y) (b_rule b) -> exists f, b_vector b y = Ok f /\ vanishes f) ->
  (solves s m r bs [] (levels s v p h) W u <-> transported s m r h v p rho rhohat W).
Proof.
  intros s m r bs h v p rho rhohat u twin W G Law Pp Pr Ph Hp Lv Dr Nl Tw HW Rs Hb.
  assert (E : forall t, W t -> _) by (intros t Wt; destruct (HW t Wt) as (Gs & Wf & Sv); exact (c86_form s m r bs h v p rho rhohat u twin t G Law Pp Pr Ph Hp Lv Dr Nl Gs Tw Wf Sv Rs Hb)).
  split; intros H t Wt; specialize (H t Wt); rewrite (E t Wt) in *; [injection H; trivial|rewrite H; reflexivity].
Qed.
Print Assumptions c86_solves.

(** A run: densities that solve the transport problem of every step make a run of the flow equations with uniform velocity and
    pressure. *)
Theorem c86_run : forall s m r bs v p (rho rhohat : nat -> nat -> R) (dt : nat -> R) Q twin (W : test -> Prop),
  1 < s_gamma s -> s_law s = Inviscid -> 0 < p -> length v = s_dim s -> (forall n x, 0 < rho n x /\ 0 < rhohat n x) ->
  unit_normals (s_dim s) m (r_cbnd r) -> two_sided m (r_cbnd r) twin ->
  (forall t, W t -> gauss (s_dim s) m (r_cvol r) (r_cbnd r) t /\ well_formed (s_dim s) t /\ single_valued twin t) ->
  s_dim s = 2%nat \/ s_riemann s = LaxFriedrich \/ s_riemann s = HLL ->
  (forall b w y, In b bs -> In (w, y) (b_rule b) -> exists f, b_vector b y = Ok f /\ vanishes f) ->
  (forall n, transported s m r (Euler (dt n) (rho n)) v p (rho (S n)) (rhohat (S n)) W) ->
  let U n := mk_unknowns (fun x => conservative_list (s_gamma s) (parcel v p (rho n x))) (fun x => conservative_list (s_gamma s) (parcel v p (rhohat n x))) Q in
  forall n, solves s m r bs [] (IE (dt n) (uU (U n))) W (U (S n)).
Proof.
  intros s m r bs v p rho rhohat dt Q twin W G Law Pp Lv Ps Nl Tw HW Rs Hb Ht U n.
  apply (c86_solves s m r bs (Euler (dt n) (rho n)) v p (rho (S n)) (rhohat (S n)) (U (S n)) twin W); trivial; try (intros y; apply Ps). intros y. split; reflexivity.
Qed.
Print Assumptions c86_run.

(** It is the run that is computed, if the steps have no other solution among the flows [P] in question. *)
Theorem c86_unique : forall s m r bs v p (rho rhohat : nat -> nat -> R) (U : nat -> unknowns) (dt : nat -> R) twin (W : test -> Prop) (P : unknowns -> Prop),
  1 < s_gamma s -> s_law s = Inviscid -> 0 < p -> length v = s_dim s -> (forall n x, 0 < rho n x /\ 0 < rhohat n x) ->
  unit_normals (s_dim s) m (r_cbnd r) -> two_sided m (r_cbnd r) twin ->
  (forall t, W t -> gauss (s_dim s) m (r_cvol r) (r_cbnd r) t /\ well_formed (s_dim s) t /\ single_valued twin t) ->
  s_dim s = 2%nat \/ s_riemann s = LaxFriedrich \/ s_riemann s = HLL ->
  (forall b w y, In b bs -> In (w, y) (b_rule b) -> exists f, b_vector b y = Ok f /\ vanishes f) ->
  (forall n, transported s m r (Euler (dt n) (rho n)) v p (rho (S n)) (rhohat (S n)) W) ->
  (forall x, uU (U 0%nat) x = conservative_list (s_gamma s) (parcel v p (rho 0%nat x))) ->
  (forall n, P (U (S n)) /\ solves s m r bs [] (IE (dt n) (uU (U n))) W (U (S n))) ->
  (forall n u, drifts s v p (rho (S n)) (rhohat (S n)) u -> P u) ->
  (forall n u u', P u -> P u' -> solves s m r bs [] (IE (dt n) (uU (U n))) W u -> solves s m r bs [] (IE (dt n) (uU (U n))) W u' -> forall x, uU u x = uU u' x) ->
  forall n x, uU (U n) x = conservative_list (s_gamma s) (parcel v p (rho n x)).
Proof.
  intros s m r bs v p rho rhohat U dt twin W P G Law Pp Lv Ps Nl Tw HW Rs Hb Ht H0 Hs HP Un n. induction n as [|n IH]; [exact H0|].
  set (u := mk_unknowns (fun x => conservative_list (s_gamma s) (parcel v p (rho (S n) x))) (fun x => conservative_list (s_gamma s) (parcel v p (rhohat (S n) x))) (uQ (U n))).
  assert (Du : drifts s v p (rho (S n)) (rhohat (S n)) u) by (intros y; split; reflexivity).
  intros x. rewrite (Un n (U (S n)) u (proj1 (Hs n)) (HP n u Du) (proj2 (Hs n))); [reflexivity|].
  assert (E : solves s m r bs [] (levels s v p (Euler (dt n) (rho n))) W u).
  { apply (c86_solves s m r bs (Euler (dt n) (rho n)) v p (rho (S n)) (rhohat (S n)) u twin W); trivial; try (intros y; apply Ps). }
  intros t Wt. rewrite <- (E t Wt). unfold weak_form. cbn [levels]. unfold time_form. rewrite (integral_ext (r_time r)
    (fun y => Ok (inner (time_derivative (IE (dt n) (uU (U n))) (uU u y) y) (tV t y)))
    (fun y => Ok (inner (time_derivative (IE (dt n) (fun z => conservative_list (s_gamma s) (parcel v p (rho n z)))) (uU u y) y) (tV t y)))); [reflexivity|].
  intros y. cbn [time_derivative]. rewrite IH. reflexivity.
Qed.
Print Assumptions c86_unique.

(** Inviscid walls and symmetries along which the gas moves: their condition holds exactly if the facet has the density of
    the element. *)
Theorem c86_wall : forall s v p rho rhohat n, 1 < s_gamma s -> 0 < p -> 0 < rho -> 0 < rhohat -> length v = s_dim s -> length n = s_dim s -> inner n n = 1 -> inner v n = 0 ->
  exists f, inviscid_wall_residual s (conservative_list (s_gamma s) (parcel v p rho)) (conservative_list (s_gamma s) (parcel v p rhohat)) n = Ok f /\
    (vanishes f <-> rhohat = rho).
Proof.
  intros s v p rho rhohat n G Pp Pr Ph Lv Ln N1 Vn. set (st := parcel v p rho). assert (V : valid st) by (apply parcel_valid; assumption).
  assert (LU : forall q, length (conservative_list (s_gamma s) (parcel v p q)) = (s_dim s + 2)%nat) by (intros q; rewrite conservative_list_length; cbn [parcel st_u]; lia).
  destruct (c50_inviscid_wall s st n (conservative_list (s_gamma s) (parcel v p rhohat)) G V Lv Ln N1 (LU rhohat)) as (f & Ef & _ & Iff). exists f. split; [exact Ef|].
  assert (Sl : slip st n (s_gamma s) = st).
  { unfold slip, st, parcel. cbn [st_rho st_u st_p]. rewrite Vn. f_equal; [|ring]. apply (nth_ext _ _ 0 0); [rewrite vsub_length, vscale_length; lia|]. intros k K. rewrite vsub_nth by (rewrite vscale_length; lia). rewrite vscale_nth. ring. }
  rewrite Iff, Sl. split; [|intros ->; reflexivity]. intros E. pose proof (f_equal (fun l => nth 0 l 0) E) as E'. exact E'.
Qed.
Print Assumptions c86_wall.

(** ** Resting gas *)

(** With Upwind, Roe or HLLEM without lower threshold every distribution of densities under uniform pressure stays at rest,
    however large its jumps, and whatever densities the facets take. *)
Theorem c86_still : forall s m r bs p dt rho rhohat u twin (W : test -> Prop), 1 < s_gamma s -> s_law s = Inviscid -> 0 < p -> (forall x, 0 < rho x) -> (forall x, 0 < rhohat x) ->
  drifts s (repeat 0 (s_dim s)) p rho rhohat u -> unit_normals (s_dim s) m (r_cbnd r) -> two_sided m (r_cbnd r) twin ->
  (forall t, W t -> gauss (s_dim s) m (r_cvol r) (r_cbnd r) t /\ well_formed (s_dim s) t /\ single_valued twin t) ->
  s_dim s = 2%nat -> s_riemann s = Upwind \/ s_riemann s = Roe \/ (exists theta, theta <= 0 /\ s_riemann s = HLLEM theta) ->
  (forall b w y, In b bs -> In (w, y) (b_rule b) -> exists f, b_vector b y = Ok f /\ vanishes f) ->
  solves s m r bs [] (IE dt (uU u)) W u.
Proof.
  intros s m r bs p dt rho rhohat u twin W G Law Pp Ps Ph D Nl Tw HW D2 Rs Hb.
  assert (E : solves s m r bs [] (levels s (repeat 0 (s_dim s)) p (Euler dt rho)) W u).
  { apply (c86_solves s m r bs (Euler dt rho) (repeat 0 (s_dim s)) p rho rhohat u twin W); trivial.
    - apply repeat_length.
    - left. exact D2.
    - assert (Mf : forall y, mass_flux s m (repeat 0 (s_dim s)) p rho rhohat y = 0).
      { intros y. unfold mass_flux. set (n := normal m y). set (c := q_c (s_gamma s) (parcel (repeat 0 (s_dim s)) p (rhohat y))).
        assert (I0 : inner (repeat 0 (s_dim s)) n = 0) by (clearbody n; generalize (s_dim s); intros k; revert n; induction k as [|k IH]; intros [|a n]; cbn; try reflexivity; rewrite IH; ring).
        rewrite I0. assert (Dz : dissipation (s_riemann s) 0 c 1 = 0).
        { assert (C : 0 < c). { unfold c, q_c. apply sqrt_lt_R0. cbn. apply Rdiv_lt_0_compat; [apply Rmult_lt_0_compat; lra|apply Ph]. }
          destruct Rs as [->|[->|(th & Th & ->)]]; cbn.
          - apply Rmax_left. lra.
          - apply Rabs_R0.
          - rewrite Rabs_R0. replace (0 / (0 + c)) with 0 by (field; lra). rewrite (Rmax_left 0 th) by lra. ring. }
        rewrite Dz. ring. }
      intros t Wt. unfold transport.
      assert (Wz : forall (q : rule) f, (forall y, f y = 0) -> weighted q f = 0) by (intros q f Z; apply weighted_zero; intros; apply Z).
      rewrite !Wz; [ring| | | |].
      + intros x. cbn [density_rate]. unfold Rdiv. ring.
      + intros x. rewrite Mf. ring.
      + intros x. rewrite Mf. ring.
      + intros x. rewrite (total_ext _ (fun _ => 0)); [rewrite total_zero; ring|]. intros j _. rewrite nth_repeat. ring. }
  intros t Wt. rewrite <- (E t Wt). unfold weak_form. cbn [levels]. unfold time_form. rewrite (integral_ext (r_time r)
    (fun y => Ok (inner (time_derivative (IE dt (uU u)) (uU u y) y) (tV t y)))
    (fun y => Ok (inner (time_derivative (IE dt (fun z => conservative_list (s_gamma s) (parcel (repeat 0 (s_dim s)) p (rho z)))) (uU u y) y) (tV t y)))); [reflexivity|].
  intros y. cbn [time_derivative]. rewrite (proj1 (D y)). reflexivity.
Qed.
Print Assumptions c86_still.

(** The others smear it: where two densities meet some mass flows through the facet, whatever its density. That includes HLLEM
    with the default threshold. *)
Theorem c86_smears : forall s m p rho rhohat y y', 1 < s_gamma s -> 0 < p -> 0 < rhohat y -> rhohat y' = rhohat y -> rho y <> rho y' ->
  s_riemann s = LaxFriedrich \/ s_riemann s = HLL \/ (exists theta, 0 < theta /\ s_riemann s = HLLEM theta) ->
  mass_flux s m (repeat 0 (s_dim s)) p rho rhohat y <> 0 \/ mass_flux s m (repeat 0 (s_dim s)) p rho rhohat y' <> 0.
Proof.
  intros s m p rho rhohat y y' G Pp Ph Eh Ne Rs.
  assert (Mf : forall z, rhohat z = rhohat y -> exists k, 0 < k /\ mass_flux s m (repeat 0 (s_dim s)) p rho rhohat z = k * (rho z - rhohat y)).
  { intros z Ez. unfold mass_flux. rewrite Ez. set (n := normal m z). set (c := q_c (s_gamma s) (parcel (repeat 0 (s_dim s)) p (rhohat y))).
    assert (I0 : inner (repeat 0 (s_dim s)) n = 0) by (clearbody n; generalize (s_dim s); intros k; revert n; induction k as [|k IH]; intros [|a n]; cbn; try reflexivity; rewrite IH; ring).
    rewrite I0. exists (dissipation (s_riemann s) 0 c 1). split; [|ring].
    assert (C : 0 < c). { unfold c, q_c. apply sqrt_lt_R0. cbn. apply Rdiv_lt_0_compat; [apply Rmult_lt_0_compat; lra|exact Ph]. }
    destruct Rs as [->|[->|(th & Th & ->)]]; cbn.
    - rewrite Rabs_R0. lra.
    - rewrite Rmax_left; lra.
    - rewrite Rabs_R0. apply Rmult_lt_0_compat; [rewrite Rmax_left; lra|]. apply Rlt_le_trans with th; [exact Th|apply Rmax_r]. }
  destruct (Mf y eq_refl) as (k & K & Ek). destruct (Mf y' Eh) as (k' & K' & Ek'). rewrite Ek, Ek'.
  destruct (Req_dec (rho y) (rhohat y)) as [Z|Z].
  - right. intros Q. apply Rmult_integral in Q. destruct Q as [Q|Q]; [lra|]. apply Ne. lra.
  - left. intros Q. apply Rmult_integral in Q. destruct Q as [Q|Q]; lra.
Qed.
Print Assumptions c86_smears.

(** ** Gas of two densities that moves round the ring of C85 *)

Definition ring_twin (y : nat) : nat := match y with 2%nat => 3%nat | 3%nat => 2%nat | 4%nat => 5%nat | 5%nat => 4%nat | _ => y end.

Lemma ring_gauss k A B : gauss 2 ring_mesh (r_cvol ring_rules) (r_cbnd ring_rules) (constant_test 2 ring_mesh k A B).
Proof.
  intros i j I J. unfold constant_test. cbn [tV tdV]. destruct i as [|[|[|[|]]]]; [| | | |lia]; destruct j as [|[|]]; try lia; cbn;
    destruct (A 0%nat), (A 1%nat); ring.
Qed.

Example c86_example :
  let v := [1; 0] in let p := 15 / 14 in let rho x := if (element ring_mesh x =? 0)%nat then 2 else 1 in let old x := if (element ring_mesh x =? 0)%nat then 5 / 2 else 1 / 2 in
  let h := Euler (1 / 4) old in let u := mk_unknowns (fun x => conservative_list (7 / 5) (parcel v p (rho x))) (fun _ => conservative_list (7 / 5) (parcel v p (3 / 2))) (fun _ => no_grads) in
  (unit_normals 2 ring_mesh (r_cbnd ring_rules) /\ two_sided ring_mesh (r_cbnd ring_rules) ring_twin /\
   forall t, ring_tests t -> gauss 2 ring_mesh (r_cvol ring_rules) (r_cbnd ring_rules) t /\ well_formed 2 t /\ single_valued ring_twin t) /\
  transported air ring_mesh ring_rules h v p rho (fun _ => 3 / 2) ring_tests /\
  solves air ring_mesh ring_rules [] [] (levels air v p h) ring_tests u.
Proof.
  cbv zeta. set (v := [1; 0]). set (p := 15 / 14). set (rho := fun x : nat => if (element ring_mesh x =? 0)%nat then 2 else 1). set (old := fun x : nat => if (element ring_mesh x =? 0)%nat then 5 / 2 else 1 / 2).
  assert (A : unit_normals 2 ring_mesh (r_cbnd ring_rules)) by apply (ring_shape 2 1 ltac:(lra)).
  assert (B : two_sided ring_mesh (r_cbnd ring_rules) ring_twin).
  { split.
    - cbn. apply Permutation.Permutation_trans with [(1, 2%nat); (1, 3%nat); (1, 5%nat); (1, 4%nat)]; [apply Permutation.perm_swap|]. do 2 apply Permutation.perm_skip. apply Permutation.perm_swap.
    - intros w y I. cbn in I. destruct I as [I|[I|[I|[I|[]]]]]; injection I as _ <-; cbn; repeat (apply f_equal2; [lra|]); reflexivity. }
  assert (C : forall t, ring_tests t -> gauss 2 ring_mesh (r_cvol ring_rules) (r_cbnd ring_rules) t /\ well_formed 2 t /\ single_valued ring_twin t).
  { intros t (k & A' & B' & K & ->). split; [apply ring_gauss|]. split.
    - intros x. unfold constant_test. cbn [tV tVhat tdV]. destruct (A' (element ring_mesh x)), (B' (facet ring_mesh x)); repeat split; apply basis_length.
    - intros y. unfold constant_test. cbn [tVhat]. destruct y as [|[|[|[|[|[|]]]]]]; reflexivity. }
  assert (Cq : q_c (7 / 5) (parcel v p (3 / 2)) = 1).
  { unfold q_c. replace (7 / 5 * st_p (parcel v p (3 / 2)) / st_rho (parcel v p (3 / 2))) with 1 by (unfold p; cbn; field). apply sqrt_1. }
  assert (T : transported air ring_mesh ring_rules (Euler (1 / 4) old) v p rho (fun _ => 3 / 2) ring_tests).
  { intros t (k & A' & B' & K & ->). unfold transport. cbn [ring_rules r_cvol r_cbnd r_time air s_dim].
    assert (Mf : forall y, mass_flux air ring_mesh v p rho (fun _ => 3 / 2) y = 3 / 2 * inner v (normal ring_mesh y) + (Rabs (inner v (normal ring_mesh y)) + 1) * (rho y - 3 / 2)).
    { intros y. unfold mass_flux. cbn [air s_riemann s_gamma dissipation]. rewrite Cq. reflexivity. }
    assert (Da : forall x j, along_gradient 2 v (tdV (constant_test 2 ring_mesh k A' B') x) j = 0).
    { intros x j. unfold along_gradient. rewrite (total_ext _ (fun _ => 0)); [apply total_zero|]. intros i _. unfold constant_test. cbn [tdV]. unfold entry. rewrite tabulate_zero, nth_repeat. ring. }
    set (e := carries v k).
    assert (Va : forall b : bool, along 2 v (if b then basis 4 k else repeat 0 4) = if b then e else 0).
    { intros b. unfold along, e. destruct b.
      - rewrite (total_ext _ (fun i => delta k i * carries v i)); [apply total_delta, K|]. intros i I. unfold basis. set (hh := fun i0 => delta k i0). rewrite (nth_indep (map hh (seq 0 4)) 0 (hh 0%nat)) by (rewrite map_length, seq_length; lia). rewrite map_nth, seq_nth by lia. unfold hh. cbn [plus]. ring.
      - rewrite (total_ext _ (fun _ => 0)); [apply total_zero|]. intros i I. rewrite nth_repeat. ring. }
    unfold constant_test. cbn [tV tVhat weighted]. rewrite !Mf, !Va. unfold mask. cbn [ring_mesh outer_facet element facet normal].
    assert (Zt : forall x, total 2 (fun j => nth j v 0 * along_gradient 2 v (tabulate (2 + 2) 2 (fun _ _ : nat => 0)) j) = 0 * x).
    { intros x. rewrite Rmult_0_l. rewrite (total_ext _ (fun _ => 0)); [apply total_zero|]. intros j _. pose proof (Da 0%nat j) as D0. unfold constant_test in D0. cbn [tdV] in D0. rewrite D0. ring. }
    cbn [tdV]. rewrite !(Zt 0). unfold rho, old, density_rate. cbn [ring_mesh element Nat.eqb].
    assert (I1 : inner v [1; 0] = 1) by (unfold v; cbn; ring). assert (I2 : inner v [-1; 0] = -1) by (unfold v; cbn; ring). rewrite I1, I2.
    rewrite (Rabs_right 1) by lra. rewrite (Rabs_left (-1)) by lra. clearbody e. destruct (A' 0%nat), (A' 1%nat), (B' 0%nat), (B' 1%nat); field. }
  split; [split; [exact A|split; [exact B|exact C]]|]. split; [exact T|].
  apply (c86_solves air ring_mesh ring_rules [] (Euler (1 / 4) old) v p rho (fun _ => 3 / 2) _ ring_twin ring_tests); trivial.
  - cbn. lra.
  - unfold p. lra.
  - intros x. unfold rho. destruct (element ring_mesh x =? 0)%nat; lra.
  - intros x. lra.
  - intros x. unfold old. destruct (element ring_mesh x =? 0)%nat; lra.
  - intros x. split; reflexivity.
  - left. reflexivity.
  - intros b w y [].
Qed.
