(** C85: with piecewise constant elements, an implicit Euler step of any length keeps density and pressure positive. *)
From Coq Require Import Reals String List Arith Bool Lia Lra Psatz.
From Verif Require Import Base M_Bla M_Flow M_Formulation M_Weak S_Flow S_Chars S_Stress S_Formulation S_Weak S_Positive L_Flow L_Formulation L_Weak L_Turn P_Eos P_Chars P_Jacobian P_Split P_Riemann P_Boundary P_Stress P_Weak P_Walls P_Unknowns.
From Verif Require Import P_Trace.
From Verif Require Import S_Formulation S_Weak S_Positive.
Import ListNotations.
Open Scope R_scope.
Open Scope list_scope.

(** ** Sums *)

Lemma weighted_total q n (c : nat -> R) (f : nat -> nat -> R) :
  weighted q (fun x => total n (fun k => c k * f k x)) = total n (fun k => c k * weighted q (f k)).
Proof.
  induction q as [|[w x] q IH]; cbn [weighted].
  - rewrite (total_ext _ (fun _ => 0)) by (intros; ring). now rewrite total_zero.
  - rewrite IH, <- total_scale, <- total_plus. apply total_ext. intros k _. ring.
Qed.

Lemma weighted_nonpos q f : (forall w x, In (w, x) q -> 0 < w /\ f x <= 0) -> weighted q f <= 0.
Proof.
  induction q as [|[w x] q IH]; intros H; cbn [weighted]; [lra|]. destruct (H w x (or_introl eq_refl)) as [P F].
  assert (weighted q f <= 0) by (apply IH; intros; apply H; now right). nra.
Qed.

Lemma weighted_negative q f : q <> [] -> (forall w x, In (w, x) q -> 0 < w /\ f x < 0) -> weighted q f < 0.
Proof.
  destruct q as [|[w x] q]; [congruence|]. intros _ H. cbn [weighted]. destruct (H w x (or_introl eq_refl)) as [P F].
  assert (weighted q f <= 0) by (apply weighted_nonpos; intros w' x' I; destruct (H w' x' (or_intror I)); split; [assumption|lra]). nra.
Qed.

(** ** A linear quantity that no flux through the boundary of an element can lower below zero *)

Definition scheme_weight (sc : scheme) : R := match sc with IE dt _ => 1 / dt | BDF dt _ _ => 3 / (2 * dt) end.

Lemma rate_carried d sc u k x : step_of sc <> 0 -> levels_have d sc -> (k < d)%nat ->
  rate sc u k x = scheme_weight sc * (nth k (uU u x) 0 - nth k (carried sc x) 0).
Proof.
  intros Hd Hl K. destruct sc as [dt n|dt n nm1]; cbn [rate carried scheme_weight step_of] in *; [field; exact Hd|].
  destruct (Hl x) as [Ln _]. set (h := fun k0 => (4 * nth k0 (n x) 0 - nth k0 (nm1 x) 0) / 3).
  rewrite (nth_indep (map h (seq 0 (length (n x)))) 0 (h 0%nat)) by (rewrite map_length, seq_length; lia). rewrite map_nth, seq_nth by lia. unfold h. cbn [plus]. field. exact Hd.
Qed.

Lemma cone s m r bs ls sc W u (c : nat -> R) e w0 x0 :
  has_constants (s_dim s) m W -> (forall x, length (uU u x) = (s_dim s + 2)%nat) -> levels_have (s_dim s + 2) sc ->
  on_domain_boundary m bs -> solves s m r bs ls sc W u -> 0 < step_of sc -> positive_rule (r_time r) -> positive_rule (r_cbnd r) ->
  (forall w y, In (w, y) (r_cbnd r) -> element m y = e -> total (s_dim s + 2) (fun k => c k * component (convection_Fn s m u) k y) <= 0) ->
  (s_law s <> Inviscid -> forall w y, In (w, y) (r_dbnd r) -> total (s_dim s + 2) (fun k => c k * component (diffusion_Gn s m u) k y) = 0) ->
  (forall l w x, In l ls -> In (w, x) (s_rule l) -> element m x = e -> 0 < w /\
    total (s_dim s + 2) (fun k => c k * component (fun x => sponge_residual s (s_target l x) (s_function l x) (uU u x)) k x) <= 0) ->
  (forall w x, In (w, x) (r_time r) -> element m x = e ->
    total (s_dim s + 2) (fun k => c k * nth k (uU u x) 0) < total (s_dim s + 2) (fun k => c k * nth k (carried sc x) 0)) ->
  In (w0, x0) (r_time r) -> element m x0 = e -> False.
Proof.
  intros HW Hu Hl Hb Hs Dt Pt Pc Hc Hd Hsp Ht I0 E0. set (N := (s_dim s + 2)%nat) in *. set (p := fun x => Nat.eqb (element m x) e).
  assert (E : total N (fun k => c k * weighted (at_points p (r_time r)) (rate sc u k)) = total N (fun k => c k * (- outflow s m r u p k - damped s ls u p k))).
  { apply total_ext. intros k K. f_equal. exact (c60_elements s m r bs ls sc W u k (fun a => Nat.eqb a e) HW Hu Hl Hb Hs K). }
  rewrite <- weighted_total in E.
  assert (L : weighted (at_points p (r_time r)) (fun x => total N (fun k => c k * rate sc u k x)) < 0).
  { apply weighted_negative.
    - intros Z. assert (Q : In (w0, x0) (at_points p (r_time r))) by (apply in_at_points; split; [exact I0|unfold p; rewrite E0; apply Nat.eqb_refl]). rewrite Z in Q. destruct Q.
    - intros w x I. apply in_at_points in I as [I P]. apply Nat.eqb_eq in P. split; [exact (Pt _ _ I)|]. pose proof (Ht w x I P) as Q.
      rewrite (total_ext _ (fun k => scheme_weight sc * (c k * nth k (uU u x) 0 + (-1) * (c k * nth k (carried sc x) 0)))).
      + rewrite total_scale, total_plus, total_scale. assert (0 < scheme_weight sc).
        { destruct sc; cbn [scheme_weight step_of] in *; apply Rdiv_lt_0_compat; lra. } nra.
      + intros k K. rewrite (rate_carried N) by (trivial; lra). ring. }
  assert (O : total N (fun k => c k * outflow s m r u p k) <= 0).
  { unfold outflow. rewrite (total_ext _ (fun k => c k * weighted (at_points p (r_cbnd r)) (component (convection_Fn s m u) k)
      + (-1) * (c k * match s_law s with Inviscid => 0 | _ => weighted (at_points p (r_dbnd r)) (component (diffusion_Gn s m u) k) end))) by (intros; ring).
    rewrite total_plus, total_scale, <- weighted_total.
    assert (A : weighted (at_points p (r_cbnd r)) (fun x => total N (fun k => c k * component (convection_Fn s m u) k x)) <= 0).
    { apply weighted_nonpos. intros w y I. apply in_at_points in I as [I P]. apply Nat.eqb_eq in P. split; [exact (Pc _ _ I)|exact (Hc w y I P)]. }
    assert (B : total N (fun k => c k * match s_law s with Inviscid => 0 | _ => weighted (at_points p (r_dbnd r)) (component (diffusion_Gn s m u) k) end) = 0).
    { destruct (s_law s) eqn:El.
      { rewrite (total_ext _ (fun _ => 0)) by (intros; ring). apply total_zero. }
      all: rewrite <- weighted_total; apply weighted_zero; intros w y I; apply in_at_points in I as [I _]; apply (Hd ltac:(discriminate) w y I). }
    lra. }
  assert (S : total N (fun k => c k * damped s ls u p k) <= 0).
  { clear - Hsp. induction ls as [|l ls IH]; cbn [damped].
    - rewrite (total_ext _ (fun _ => 0)) by (intros; ring). rewrite total_zero. lra.
    - rewrite (total_ext _ (fun k => c k * weighted (at_points p (s_rule l)) (component (fun x => sponge_residual s (s_target l x) (s_function l x) (uU u x)) k) + c k * damped s ls u p k)) by (intros; ring).
      rewrite total_plus, <- weighted_total. assert (total N (fun k => c k * damped s ls u p k) <= 0) by (apply IH; intros l' w x I; apply Hsp; now right).
      assert (weighted (at_points p (s_rule l)) (fun x => total N (fun k => c k * component (fun x0 => sponge_residual s (s_target l x0) (s_function l x0) (uU u x0)) k x)) <= 0).
      { apply weighted_nonpos. intros w x I. apply in_at_points in I as [I P]. apply Nat.eqb_eq in P. exact (Hsp l w x (or_introl eq_refl) I P). }
      lra. }
  rewrite (total_ext _ (fun k => (-1) * (c k * outflow s m r u p k + c k * damped s ls u p k))) in E by (intros; ring). rewrite total_scale, total_plus in E. lra.
Qed.

(** ** Fluxes *)

(** The numerical fluxes of Lax-Friedrichs and HLL, with their damping. *)
Lemma flux_entries cfg w U n f : 1 < s_gamma cfg -> valid w -> length (st_u w) = s_dim cfg -> length n = s_dim cfg -> length U = (s_dim cfg + 2)%nat ->
  s_riemann cfg = LaxFriedrich \/ s_riemann cfg = HLL ->
  get_convective_numerical_flux cfg U (conservative_list (s_gamma cfg) w) n = Ok f ->
  let a := dissipation (s_riemann cfg) (inner (st_u w) n) (q_c (s_gamma cfg) w) 0 in
  forall i, (i < s_dim cfg + 2)%nat -> nth i f 0 = normal_flux (s_gamma cfg) w n i + a * (nth i U 0 - nth i (conservative_list (s_gamma cfg) w) 0).
Proof.
  intros G V Dim Ln LU Rs H a.
  assert (Inv : exists tau, get_convective_stabilisation_matrix cfg false (full_fields cfg w) n = Ok tau).
  { unfold get_convective_stabilisation_matrix. destruct Rs as [-> | ->]; eexists; reflexivity. }
  destruct Inv as (tau & Ht).
  assert (NE : f_Ei (full_fields cfg w) = None \/ f_T (full_fields cfg w) <> None \/ (f_rho (full_fields cfg w) <> None /\ f_p (full_fields cfg w) <> None)) by (left; reflexivity).
  destruct (c47_scalar cfg false w _ n G V (full_describes cfg w) ltac:(discriminate) NE Rs tau Ht) as [(R1 & C1 & _) E1].
  destruct (numerical_flux_entries cfg w U n f tau G V Dim Ln H Ht) as [_ Ef].
  assert (E : forall k, dissipation (s_riemann cfg) (inner (st_u w) n) (q_c (s_gamma cfg) w) k = a) by (intros k; unfold a; destruct Rs as [-> | ->]; reflexivity).
  intros i I. rewrite Ef by exact I. f_equal.
  assert (LW : length (conservative_list (s_gamma cfg) w) = (s_dim cfg + 2)%nat) by (rewrite conservative_list_length; lia).
  rewrite mvmul_total by lia. rewrite C1.
  rewrite (total_ext _ (fun k => a * (delta i k * nth k (vsub U (conservative_list (s_gamma cfg) w)) 0))) by (intros k K; rewrite E1 by lia; rewrite E; ring).
  rewrite total_scale, (total_delta (fun k => nth k (vsub U (conservative_list (s_gamma cfg) w)) 0)) by lia. rewrite vsub_nth by lia. reflexivity.
Qed.

Lemma damping_bounds cfg un c : s_riemann cfg = LaxFriedrich \/ s_riemann cfg = HLL -> 0 <= c ->
  let a := dissipation (s_riemann cfg) un c 0 in 0 <= a /\ c <= a - un.
Proof.
  intros Rs C. destruct Rs as [-> | ->]; cbn [dissipation]; cbv zeta.
  - pose proof (Rabs_pos un). pose proof (Rle_abs un). lra.
  - pose proof (Rmax_l (un + c) 0). pose proof (Rmax_r (un + c) 0). lra.
Qed.

(** The energy seen by an observer of velocity [v]. *)
Definition seen (d : nat) (v : list R) (k : nat) : R :=
  if (k =? 0)%nat then inner v v / 2 else if (k <=? d)%nat then - nth (k - 1) v 0 else 1.

Lemma seen_total d v f : length v = d ->
  total (d + 2) (fun k => seen d v k * f k) = inner v v / 2 * f 0%nat - total d (fun j => nth j v 0 * f (j + 1)%nat) + f (d + 1)%nat.
Proof.
  intros L. rewrite total_parts. unfold seen at 1 3. cbn [Nat.eqb]. replace (d + 1 =? 0)%nat with false by (symmetry; apply Nat.eqb_neq; lia).
  replace (d + 1 <=? d)%nat with false by (symmetry; apply Nat.leb_gt; lia).
  rewrite (total_ext _ (fun j => (-1) * (nth j v 0 * f (j + 1)%nat))). { rewrite total_scale. ring. }
  intros j J. unfold seen. replace (j + 1 =? 0)%nat with false by (symmetry; apply Nat.eqb_neq; lia).
  replace (j + 1 <=? d)%nat with true by (symmetry; apply Nat.leb_le; lia). replace (j + 1 - 1)%nat with j by lia. ring.
Qed.

(** A vector is physical exactly if its density is positive and every observer sees positive energy. *)
Lemma physical_seen d U : length U = (d + 2)%nat ->
  (physical d U <-> 0 < nth 0 U 0 /\ forall v, length v = d -> 0 < total (d + 2) (fun k => seen d v k * nth k U 0)).
Proof.
  intros L. unfold physical. split.
  - intros (_ & P & Q). split; [exact P|]. intros v Lv. rewrite seen_total by exact Lv. set (rho := nth 0 U 0) in *.
    assert (S : 0 <= total d (fun j => (rho * nth j v 0 - nth (j + 1) U 0) ^ 2)).
    { clear. induction d as [|d IH]; cbn [total]; [lra|]. pose proof (pow2_ge_0 (rho * nth d v 0 - nth (d + 1) U 0)). lra. }
    rewrite (total_ext _ (fun j => rho * rho * nth j v 0 ^ 2 + ((-2 * rho) * (nth j v 0 * nth (j + 1) U 0) + nth (j + 1) U 0 ^ 2))) in S by (intros; ring).
    rewrite !total_plus, !total_scale in S. rewrite inner_squares, Lv. set (a := total d (fun j => nth j v 0 ^ 2)) in *.
    set (b := total d (fun j => nth j v 0 * nth (j + 1) U 0)) in *. set (q := total d (fun j => nth (j + 1) U 0 ^ 2)) in *. set (E := nth (d + 1) U 0) in *.
    assert (0 < 2 * rho * (a / 2 * rho - b + E)) by nra. assert (0 < 2 * rho) by lra. nra.
  - intros (P & Q). split; [exact L|]. split; [exact P|]. set (rho := nth 0 U 0) in *.
    set (v := map (fun j => nth (j + 1) U 0 / rho) (seq 0 d)). assert (Lv : length v = d) by (unfold v; now rewrite map_length, seq_length).
    specialize (Q v Lv). rewrite seen_total in Q by exact Lv. fold rho in Q. rewrite inner_squares, Lv in Q.
    assert (Nv : forall j, (j < d)%nat -> nth j v 0 = nth (j + 1) U 0 / rho).
    { intros j J. unfold v. set (h := fun j0 => nth (j0 + 1) U 0 / rho). rewrite (nth_indep (map h (seq 0 d)) 0 (h 0%nat)) by (rewrite map_length, seq_length; lia). rewrite map_nth, seq_nth by lia. reflexivity. }
    rewrite (total_ext (fun k => nth k v 0 ^ 2) (fun j => / rho ^ 2 * nth (j + 1) U 0 ^ 2)) in Q by (intros j J; rewrite Nv by exact J; field; lra).
    rewrite (total_ext (fun j => nth j v 0 * nth (j + 1) U 0) (fun j => / rho * nth (j + 1) U 0 ^ 2)) in Q by (intros j J; rewrite Nv by exact J; field; lra).
    rewrite !total_scale in Q. set (q := total d (fun j => nth (j + 1) U 0 ^ 2)) in *. set (E := nth (d + 1) U 0) in *.
    assert (X : 2 * rho * (/ rho ^ 2 * q / 2 * rho - / rho * q + E) = 2 * rho * E - q) by (field; lra). assert (0 < 2 * rho * (/ rho ^ 2 * q / 2 * rho - / rho * q + E)) by (apply Rmult_lt_0_compat; lra). lra.
Qed.

Lemma observed w v : length v = length (st_u w) ->
  total (length (st_u w)) (fun j => (nth j (st_u w) 0 - nth j v 0) ^ 2) = inner (st_u w) (st_u w) - 2 * total (length (st_u w)) (fun j => nth j v 0 * nth j (st_u w) 0) + inner v v.
Proof.
  intros L. rewrite !inner_squares, L.
  rewrite (total_ext _ (fun j => nth j (st_u w) 0 ^ 2 + ((-2) * (nth j v 0 * nth j (st_u w) 0) + nth j v 0 ^ 2))) by (intros; ring). rewrite !total_plus, total_scale. ring.
Qed.

(** What the observer sees of a state, and of its flux: the energy is carried by the flow, and pressure works on the
    relative motion. *)
Lemma seen_state g w v : 1 < g -> valid w -> length v = length (st_u w) ->
  total (length (st_u w) + 2) (fun k => seen (length (st_u w)) v k * nth k (conservative_list g w) 0)
  = st_rho w / 2 * total (length (st_u w)) (fun j => (nth j (st_u w) 0 - nth j v 0) ^ 2) + st_p w / (g - 1).
Proof.
  intros G [P Q] L. rewrite seen_total by exact L. rewrite energy_nth, rho_nth, observed by exact L.
  rewrite (total_ext _ (fun j => st_rho w * (nth j v 0 * nth j (st_u w) 0))).
  - rewrite total_scale. unfold q_rho_E, q_E, q_Ei, q_rho_Ei, q_Ek. field. lra.
  - intros j J. rewrite conservative_list_nth by lia. unfold conservative. replace (j + 1 =? 0)%nat with false by (symmetry; apply Nat.eqb_neq; lia).
    replace (j + 1 <=? length (st_u w))%nat with true by (symmetry; apply Nat.leb_le; lia). replace (j + 1 - 1)%nat with j by lia. ring.
Qed.

Lemma seen_flux g w v n : 1 < g -> valid w -> length v = length (st_u w) -> length n = length (st_u w) ->
  total (length (st_u w) + 2) (fun k => seen (length (st_u w)) v k * normal_flux g w n k)
  = inner (st_u w) n * (st_rho w / 2 * total (length (st_u w)) (fun j => (nth j (st_u w) 0 - nth j v 0) ^ 2) + st_p w / (g - 1))
    + st_p w * (inner (st_u w) n - inner v n).
Proof.
  intros G [P Q] L Ln. rewrite seen_total by exact L. set (d := length (st_u w)) in *. set (un := inner (st_u w) n).
  assert (Un : total d (fun j => nth j (st_u w) 0 * nth j n 0) = un) by (unfold un; rewrite inner_total by (unfold d in Ln; lia); reflexivity).
  assert (F0 : normal_flux g w n 0 = st_rho w * un).
  { unfold normal_flux. fold d. rewrite (total_ext _ (fun j => st_rho w * (nth j (st_u w) 0 * nth j n 0))) by (intros j _; unfold euler_flux; cbn [Nat.eqb]; ring). rewrite total_scale, Un. ring. }
  assert (FE : normal_flux g w n (d + 1) = (q_rho_E g w + st_p w) * un).
  { unfold normal_flux. fold d. rewrite (total_ext _ (fun j => (q_rho_E g w + st_p w) * (nth j (st_u w) 0 * nth j n 0))).
    - rewrite total_scale, Un. ring.
    - intros j J. unfold euler_flux. replace (d + 1 =? 0)%nat with false by (symmetry; apply Nat.eqb_neq; lia).
      replace (d + 1 <=? d)%nat with false by (symmetry; apply Nat.leb_gt; lia). ring. }
  assert (FM : forall i, (i < d)%nat -> normal_flux g w n (i + 1) = st_rho w * nth i (st_u w) 0 * un + st_p w * nth i n 0).
  { intros i I. unfold normal_flux. fold d.
    rewrite (total_ext _ (fun j => st_rho w * nth i (st_u w) 0 * (nth j (st_u w) 0 * nth j n 0) + st_p w * (delta i j * nth j n 0))).
    - rewrite total_plus, !total_scale, Un, total_delta by exact I. reflexivity.
    - intros j J. unfold euler_flux. replace (i + 1 =? 0)%nat with false by (symmetry; apply Nat.eqb_neq; lia).
      replace (i + 1 <=? d)%nat with true by (symmetry; apply Nat.leb_le; lia). replace (i + 1 - 1)%nat with i by lia. ring. }
  rewrite F0, FE. rewrite (total_ext _ (fun j => st_rho w * un * (nth j v 0 * nth j (st_u w) 0) + st_p w * (nth j v 0 * nth j n 0))) by (intros j J; rewrite FM by exact J; ring).
  rewrite total_plus, !total_scale. rewrite (inner_total v n) by (unfold d in *; lia). rewrite L. pose proof (observed w v L) as Ob. fold d in Ob. rewrite Ob.
  unfold q_rho_E, q_E, q_Ei, q_rho_Ei, q_Ek. field. lra.
Qed.

Lemma seen_normal d (z n : nat -> R) : total d (fun j => n j * n j) = 1 -> total d (fun j => z j * n j) ^ 2 <= total d (fun j => z j ^ 2).
Proof.
  intros U. set (t := total d (fun j => z j * n j)).
  assert (S : 0 <= total d (fun j => (z j - t * n j) ^ 2)).
  { clearbody t. clear. induction d as [|d IH]; cbn [total]; [lra|]. pose proof (pow2_ge_0 (z d - t * n d)). lra. }
  rewrite (total_ext _ (fun j => z j ^ 2 + ((-2 * t) * (z j * n j) + t * t * (n j * n j)))) in S by (intros; ring).
  rewrite !total_plus, !total_scale, U in S. fold t in S. nra.
Qed.

(** The splitting of the flux: what the damping adds outweighs what the flux takes. *)
Lemma split_energy g w v n a : 1 < g -> valid w -> length v = length (st_u w) -> length n = length (st_u w) -> inner n n = 1 ->
  q_c g w <= a - inner (st_u w) n ->
  total (length (st_u w) + 2) (fun k => seen (length (st_u w)) v k * normal_flux g w n k)
  <= a * total (length (st_u w) + 2) (fun k => seen (length (st_u w)) v k * nth k (conservative_list g w) 0).
Proof.
  intros G V L Ln Un C. rewrite seen_flux, seen_state by assumption. destruct V as [P Q]. set (un := inner (st_u w) n) in *.
  set (b := a - un) in *. replace a with (b + un) by (unfold b; ring). set (z2 := total (length (st_u w)) (fun j => (nth j (st_u w) 0 - nth j v 0) ^ 2)).
  set (t := un - inner v n). assert (T : t ^ 2 <= z2).
  { unfold z2. replace t with (total (length (st_u w)) (fun j => (nth j (st_u w) 0 - nth j v 0) * nth j n 0)).
    - apply (seen_normal _ (fun j => nth j (st_u w) 0 - nth j v 0) (fun j => nth j n 0)). rewrite <- Un. rewrite inner_total, Ln by reflexivity. reflexivity.
    - unfold t, un. rewrite !inner_total by lia. rewrite L.
      rewrite (total_ext _ (fun j => nth j (st_u w) 0 * nth j n 0 + (-1) * (nth j v 0 * nth j n 0))) by (intros; ring). rewrite total_plus, total_scale. ring. }
  assert (C2 : g * st_p w <= b * b * st_rho w).
  { assert (X : 0 <= g * st_p w / st_rho w) by (apply Rlt_le, Rdiv_lt_0_compat; nra).
    pose proof (sqrt_pos (g * st_p w / st_rho w)) as S0. pose proof (sqrt_sqrt _ X) as S1. fold (q_c g w) in S0, S1.
    assert (Y : q_c g w * q_c g w <= b * b) by nra. rewrite S1 in Y. apply (Rmult_le_compat_r (st_rho w)) in Y; [|lra].
    replace (g * st_p w / st_rho w * st_rho w) with (g * st_p w) in Y by (field; lra). exact Y. }
  assert (B : 0 < b). { pose proof (sqrt_lt_R0 (g * st_p w / st_rho w)) as S0. fold (q_c g w) in S0. assert (0 < q_c g w) by (apply S0, Rdiv_lt_0_compat; nra). lra. }
  enough (st_p w * t <= b * (st_rho w / 2 * z2 + st_p w / (g - 1))) by nra. clearbody t z2 b un. clear - G P Q T C2 B. set (p := st_p w) in *. set (rho := st_rho w) in *. clearbody p rho.
  assert (K : b * (rho / 2 * t ^ 2 + p / (g - 1)) <= b * (rho / 2 * z2 + p / (g - 1))) by (apply Rmult_le_compat_l; nra).
  enough (p * t <= b * (rho / 2 * t ^ 2 + p / (g - 1))) by lra.
  assert (I : p / (g - 1) * (g - 1) = p) by (field; lra). set (e := p / (g - 1)) in *. assert (E : 0 < e) by (apply Rdiv_lt_0_compat; lra). clearbody e.
  assert (D : p * p <= 2 * b * b * rho * e).
  { assert (p <= 2 * b * b * rho / g * 1) by (apply (Rmult_le_reg_r g); [lra|]; replace (2 * b * b * rho / g * 1 * g) with (2 * (b * b * rho)) by (field; lra); nra).
    assert (p * (g - 1) <= 2 * (b * b * rho)) by nra. nra. }
  assert (S : 0 <= (b * rho * t - p) ^ 2) by apply pow2_ge_0.
  assert (0 < b * rho) by nra. assert (b * rho * (p * t) <= b * rho * (b * (rho / 2 * t ^ 2 + e))) by nra. nra.
Qed.

(** ** One step *)

Section Step.
Variable s : settings.
Variable m : mesh.
Variable r : rules.
Variable bs : list bterm.
Variable ls : list sponge.
Variable sc : scheme.
Variable W : test -> Prop.
Variable u : unknowns.
Hypothesis G : 1 < s_gamma s.
Hypothesis Rs : s_riemann s = LaxFriedrich \/ s_riemann s = HLL.
Hypothesis HW : has_constants (s_dim s) m W.
Hypothesis Hu : forall x, length (uU u x) = (s_dim s + 2)%nat.
Hypothesis Hl : levels_have (s_dim s + 2) sc.
Hypothesis Hb : on_domain_boundary m bs.
Hypothesis Hs : solves s m r bs ls sc W u.
Hypothesis Dt : 0 < step_of sc.
Hypothesis Pt : positive_rule (r_time r).
Hypothesis Pc : positive_rule (r_cbnd r).
Hypothesis Un : unit_normals (s_dim s) m (r_cbnd r).
Hypothesis Fa : physical_facets (s_dim s) u (r_cbnd r).
Hypothesis Sp : proper_sponges s ls.
Hypothesis Pw : piecewise_constant m (uU u).
Hypothesis Old : forall w x, In (w, x) (r_time r) -> physical (s_dim s) (carried sc x).

Lemma facet_state w y : In (w, y) (r_cbnd r) -> exists st, valid st /\ length (st_u st) = s_dim s /\ uUhat u y = conservative_list (s_gamma s) st.
Proof. intros I. destruct (proj1 (c57_physical (s_gamma s) (s_dim s) _ G) (Fa w y I)) as (st & V & L & E). exists st. auto. Qed.

Lemma sponge_entries l w x : In l ls -> In (w, x) (s_rule l) ->
  exists v f, 0 < w /\ 0 <= s_function l x /\ physical (s_dim s) v /\ sponge_residual s (s_target l x) (s_function l x) (uU u x) = Ok f /\
    forall k, (k < s_dim s + 2)%nat -> nth k f 0 = s_function l x * (nth k (uU u x) 0 - nth k v 0).
Proof.
  intros Il I. destruct (Sp l w x Il I) as (Pw0 & Ps & v & Ev & Ph). exists v, (vscale (s_function l x) (vsub (uU u x) v)).
  do 3 (split; [assumption|]). unfold sponge_residual. rewrite Ev. split; [reflexivity|].
  intros k K. rewrite vscale_nth, vsub_nth by (rewrite Hu, (proj1 Ph); reflexivity). reflexivity.
Qed.

(** A quantity that a physical state has, that no flux takes from an element without it, and that diffusion leaves. *)
Lemma step_cone (c : nat -> R) :
  (forall U, physical (s_dim s) U -> 0 < total (s_dim s + 2) (fun k => c k * nth k U 0)) ->
  (forall st n a, valid st -> length (st_u st) = s_dim s -> length n = s_dim s -> inner n n = 1 -> q_c (s_gamma s) st <= a - inner (st_u st) n ->
    total (s_dim s + 2) (fun k => c k * normal_flux (s_gamma s) st n k) <= a * total (s_dim s + 2) (fun k => c k * nth k (conservative_list (s_gamma s) st) 0)) ->
  (s_law s <> Inviscid -> forall w y, In (w, y) (r_dbnd r) -> total (s_dim s + 2) (fun k => c k * component (diffusion_Gn s m u) k y) = 0) ->
  forall w x, In (w, x) (r_time r) -> 0 < total (s_dim s + 2) (fun k => c k * nth k (uU u x) 0).
Proof.
  intros Ph Fl Di w x I. apply Rnot_le_lt. intros N. set (D := (s_dim s + 2)%nat) in *.
  assert (At : forall y, element m y = element m x -> total D (fun k => c k * nth k (uU u y) 0) <= 0) by (intros y E; rewrite (Pw y x E); exact N).
  apply (cone s m r bs ls sc W u c (element m x) w x HW Hu Hl Hb Hs Dt Pt Pc); trivial.
  - intros w' y I' E. destruct (c60_computed s m r bs ls sc W u HW Hs) as [Cc _]. destruct (Cc w' y I') as [f Ef].
    destruct (facet_state w' y I') as (st & V & L & EU). destruct (Un w' y I') as [Ln N1].
    rewrite (total_ext _ (fun k => c k * nth k f 0)) by (intros k _; unfold component; rewrite Ef; reflexivity).
    unfold convection_Fn in Ef. rewrite EU in Ef. pose proof (flux_entries s st (uU u y) (normal m y) f G V L Ln (Hu y) Rs Ef) as Fe. cbv zeta in Fe.
    set (a := dissipation (s_riemann s) (inner (st_u st) (normal m y)) (q_c (s_gamma s) st) 0) in *.
    destruct (damping_bounds s (inner (st_u st) (normal m y)) (q_c (s_gamma s) st) Rs (sqrt_pos _)) as [A0 A1]. fold a in A0, A1.
    pose proof (Fl st (normal m y) a V L Ln N1 A1) as F1. pose proof (At y E) as F2.
    rewrite (total_ext _ (fun k => c k * normal_flux (s_gamma s) st (normal m y) k + (a * (c k * nth k (uU u y) 0) + - a * (c k * nth k (conservative_list (s_gamma s) st) 0)))) by (intros k K; rewrite Fe by exact K; ring).
    rewrite !total_plus, !total_scale. pose proof (Rmult_le_compat_l a _ _ A0 F2) as F3. rewrite Rmult_0_r in F3. fold D. lra.
  - intros l w' y Il I' E. destruct (sponge_entries l w' y Il I') as (v & f & P0 & P1 & Pv & Ef & En). split; [exact P0|].
    rewrite (total_ext _ (fun k => s_function l y * (c k * nth k (uU u y) 0) + - s_function l y * (c k * nth k v 0))) by (intros k K; unfold component; rewrite Ef, En by exact K; ring).
    rewrite total_plus, !total_scale. pose proof (At y E). pose proof (Ph v Pv). fold D. nra.
  - intros w' y I' E. pose proof (At y E). pose proof (Ph _ (Old w' y I')). fold D. lra.
Qed.
End Step.

(** Density, any fluid: whatever the boundary conditions, the mesh and the length of the step are. *)
Theorem c85_density : forall s m r bs ls sc W u,
  1 < s_gamma s -> s_riemann s = LaxFriedrich \/ s_riemann s = HLL ->
  has_constants (s_dim s) m W -> (forall x, length (uU u x) = (s_dim s + 2)%nat) -> levels_have (s_dim s + 2) sc ->
  on_domain_boundary m bs -> solves s m r bs ls sc W u -> 0 < step_of sc ->
  positive_rule (r_time r) -> positive_rule (r_cbnd r) -> unit_normals (s_dim s) m (r_cbnd r) ->
  physical_facets (s_dim s) u (r_cbnd r) -> proper_sponges s ls -> piecewise_constant m (uU u) ->
  (forall w x, In (w, x) (r_time r) -> physical (s_dim s) (carried sc x)) ->
  forall w x, In (w, x) (r_time r) -> 0 < nth 0 (uU u x) 0.
Proof.
  intros s m r bs ls sc W u G Rs HW Hu Hl Hb Hs Dt Pt Pc Un Fa Sp Pw Old w x I.
  assert (T : forall f, total (s_dim s + 2) (fun k => delta 0 k * f k) = f 0%nat) by (intros f; apply total_delta; lia).
  rewrite <- (T (fun k => nth k (uU u x) 0)). apply (step_cone s m r bs ls sc W u G Rs HW Hu Hl Hb Hs Dt Pt Pc Un Fa Sp Pw Old (delta 0)) with (w := w); [| | |exact I].
  - intros U (_ & P & _). rewrite T. exact P.
  - intros st n a V L Ln N1 A. rewrite !T, rho_nth. destruct V as [P Q].
    assert (F : normal_flux (s_gamma s) st n 0 = st_rho st * inner (st_u st) n).
    { unfold normal_flux. rewrite (total_ext _ (fun j => st_rho st * (nth j (st_u st) 0 * nth j n 0))) by (intros j _; unfold euler_flux; cbn [Nat.eqb]; ring).
      rewrite total_scale, inner_total by lia. reflexivity. }
    rewrite F. pose proof (sqrt_pos (s_gamma s * st_p st / st_rho st)) as S0. fold (q_c (s_gamma s) st) in S0. nra.
  - intros Law w' y I'. rewrite T. unfold component. destruct (proj2 (c60_computed s m r bs ls sc W u HW Hs) Law w' y I') as [q Eq]. rewrite Eq. exact (diffusion_carries_no_mass _ _ _ _ _ _ Eq).
Qed.
Print Assumptions c85_density.

(** Inviscid fluids: the pressure stays positive too. *)
Theorem c85_physical : forall s m r bs ls sc W u,
  1 < s_gamma s -> s_law s = Inviscid -> s_riemann s = LaxFriedrich \/ s_riemann s = HLL ->
  has_constants (s_dim s) m W -> (forall x, length (uU u x) = (s_dim s + 2)%nat) -> levels_have (s_dim s + 2) sc ->
  on_domain_boundary m bs -> solves s m r bs ls sc W u -> 0 < step_of sc ->
  positive_rule (r_time r) -> positive_rule (r_cbnd r) -> unit_normals (s_dim s) m (r_cbnd r) ->
  physical_facets (s_dim s) u (r_cbnd r) -> proper_sponges s ls -> piecewise_constant m (uU u) ->
  (forall w x, In (w, x) (r_time r) -> physical (s_dim s) (carried sc x)) ->
  forall w x, In (w, x) (r_time r) -> physical (s_dim s) (uU u x).
Proof.
  intros s m r bs ls sc W u G Law Rs HW Hu Hl Hb Hs Dt Pt Pc Un Fa Sp Pw Old w x I. apply physical_seen; [apply Hu|].
  split; [exact (c85_density s m r bs ls sc W u G Rs HW Hu Hl Hb Hs Dt Pt Pc Un Fa Sp Pw Old w x I)|]. intros v Lv.
  apply (step_cone s m r bs ls sc W u G Rs HW Hu Hl Hb Hs Dt Pt Pc Un Fa Sp Pw Old (seen (s_dim s) v)) with (w := w); [| | |exact I].
  - intros U P. exact (proj2 (proj1 (physical_seen _ _ (proj1 P)) P) v Lv).
  - intros st n a V L Ln N1 A. rewrite <- L. apply split_energy; trivial; lia.
  - intros N. congruence.
Qed.
Print Assumptions c85_physical.

(** ** Many steps *)

(** Implicit Euler, steps of any lengths: a run that starts physical and has physical facets stays physical. *)
Theorem c85_run : forall s m r bs ls W (U : nat -> unknowns) (dt : nat -> R),
  1 < s_gamma s -> s_law s = Inviscid -> s_riemann s = LaxFriedrich \/ s_riemann s = HLL ->
  has_constants (s_dim s) m W -> (forall n x, length (uU (U n) x) = (s_dim s + 2)%nat) -> on_domain_boundary m bs ->
  (forall n, 0 < dt n) -> (forall n, solves s m r bs ls (IE (dt n) (uU (U n))) W (U (S n))) ->
  positive_rule (r_time r) -> positive_rule (r_cbnd r) -> unit_normals (s_dim s) m (r_cbnd r) -> proper_sponges s ls ->
  (forall n, physical_facets (s_dim s) (U (S n)) (r_cbnd r)) -> (forall n, piecewise_constant m (uU (U (S n)))) ->
  (forall w x, In (w, x) (r_time r) -> physical (s_dim s) (uU (U 0%nat) x)) ->
  forall n w x, In (w, x) (r_time r) -> physical (s_dim s) (uU (U n) x).
Proof.
  intros s m r bs ls W U dt G Law Rs HW Hu Hb Hdt Hs Pt Pc Un Sp Fa Pw H0 n. induction n as [|n IH]; [exact H0|].
  exact (c85_physical s m r bs ls (IE (dt n) (uU (U n))) W (U (S n)) G Law Rs HW (Hu _) (Hu _) Hb (Hs n) (Hdt n) Pt Pc Un (Fa n) Sp (Pw n) IH).
Qed.
Print Assumptions c85_run.

Lemma content_at q U k w x : positive_rule q -> In (w, x) q -> (forall w' x', In (w', x') q -> 0 < nth k (U x') 0) -> w * nth k (U x) 0 <= content q U k.
Proof.
  unfold content. induction q as [|[a b] q IH]; intros P I H; [destruct I|]. cbn [weighted].
  assert (Z : 0 <= weighted q (fun x0 => nth k (U x0) 0)).
  { assert (P' : positive_rule q) by (intros w' x' I'; apply (P w' x'); now right). assert (H' : forall w' x', In (w', x') q -> 0 < nth k (U x') 0) by (intros w' x' I'; apply (H w' x'); now right).
    clear - P' H'. induction q as [|[w' x'] q IH]; cbn [weighted]; [lra|]. pose proof (P' w' x' (or_introl eq_refl)). pose proof (H' w' x' (or_introl eq_refl)).
    assert (0 <= weighted q (fun x => nth k (U x) 0)) by (apply IH; [intros a b J; apply (P' a b); now right|intros a b J; apply (H' a b); now right]). nra. }
  destruct I as [E|I].
  - injection E as -> ->. lra.
  - pose proof (P a b (or_introl eq_refl)). pose proof (H a b (or_introl eq_refl)).
    assert (w * nth k (U x) 0 <= weighted q (fun x0 => nth k (U x0) 0)) by (apply IH; [intros a' b' J; apply (P a' b'); now right|exact I|intros a' b' J; apply (H a' b'); now right]). nra.
Qed.

Lemma physical_energy d U : physical d U -> 0 < nth (d + 1) U 0.
Proof.
  intros (_ & P & Q). assert (0 <= total d (fun j => nth (j + 1) U 0 ^ 2)).
  { clear. induction d as [|d IH]; cbn [total]; [lra|]. pose proof (pow2_ge_0 (nth (d + 1) U 0)). lra. } nra.
Qed.

(** Without domain boundaries the flow can never blow up: mass and energy of the start bound density, energy and momentum
    of every cell after every number of steps of any lengths. *)
Theorem c85_bounded : forall s m r W (U : nat -> unknowns) dt,
  1 < s_gamma s -> s_law s = Inviscid -> s_riemann s = LaxFriedrich \/ s_riemann s = HLL ->
  has_constants (s_dim s) m W -> (forall n x, length (uU (U n) x) = (s_dim s + 2)%nat) ->
  (forall w y, In (w, y) (r_cbnd r) \/ In (w, y) (r_dbnd r) -> outer_facet m (facet m y) = false) ->
  0 < dt -> (forall n, solves s m r [] [] (IE dt (uU (U n))) W (U (S n))) ->
  positive_rule (r_time r) -> positive_rule (r_cbnd r) -> unit_normals (s_dim s) m (r_cbnd r) ->
  (forall n, physical_facets (s_dim s) (U (S n)) (r_cbnd r)) -> (forall n, piecewise_constant m (uU (U (S n)))) ->
  (forall w x, In (w, x) (r_time r) -> physical (s_dim s) (uU (U 0%nat) x)) ->
  forall n w x, In (w, x) (r_time r) ->
    bounded_by (s_dim s) (content (r_time r) (uU (U 0%nat)) 0 / w) (content (r_time r) (uU (U 0%nat)) (s_dim s + 1) / w) (uU (U n) x).
Proof.
  intros s m r W U dt G Law Rs HW Hu Ho Hdt Hs Pt Pc Un Fa Pw H0 n w x I.
  assert (Ph : forall w' x', In (w', x') (r_time r) -> physical (s_dim s) (uU (U n) x')).
  { apply (c85_run s m r [] [] W U (fun _ => dt)); trivial; [intros b w' y []|intros l w' x' []]. }
  pose proof (Pt w x I) as Pw0.
  assert (B : forall k, (k < s_dim s + 2)%nat -> (forall w' x', In (w', x') (r_time r) -> 0 < nth k (uU (U n) x') 0) -> nth k (uU (U n) x) 0 <= content (r_time r) (uU (U 0%nat)) k / w).
  { intros k K Pk. rewrite <- (c60_periodic s m r W U dt k n HW Hu ltac:(lra) K Ho (or_introl Hs)).
    pose proof (content_at (r_time r) (uU (U n)) k w x Pt I Pk) as C. apply (Rmult_le_reg_r w); [exact Pw0|]. replace (content (r_time r) (uU (U n)) k / w * w) with (content (r_time r) (uU (U n)) k) by (field; lra). lra. }
  assert (B0 := B 0%nat ltac:(lia) (fun w' x' J => proj1 (proj2 (Ph w' x' J)))).
  assert (B1 := B (s_dim s + 1)%nat ltac:(lia) (fun w' x' J => physical_energy _ _ (Ph w' x' J))).
  destruct (Ph w x I) as (L & P & Q). pose proof (physical_energy _ _ (Ph w x I)) as P1. unfold bounded_by. split; [lra|]. split; [lra|].
  apply (Rlt_le_trans _ _ _ Q). rewrite !Rmult_assoc. apply Rmult_le_compat_l; [lra|]. apply Rmult_le_compat; lra.
Qed.
Print Assumptions c85_bounded.

(** ** Two cells of gas at rest in a ring *)

(** Cells 0 and 1 touch each other at the facets 0 and 1; points 0 and 1 lie in the cells, 2 and 5 on the boundary of cell 0,
    3 and 4 on that of cell 1. *)
Definition ring_mesh : mesh :=
  mk_mesh (fun x => match x with 1%nat | 3%nat | 4%nat => 1%nat | _ => 0%nat end)
          (fun y => match y with 2%nat | 3%nat => 0%nat | _ => 1%nat end)
          (fun y => match y with 2%nat | 4%nat => [1; 0] | _ => [-1; 0] end) (fun _ => false).
Definition ring_rules : rules := mk_rules [(1, 0%nat); (1, 1%nat)] [(1, 2%nat); (1, 3%nat); (1, 4%nat); (1, 5%nat)] [] [] [(1, 0%nat); (1, 1%nat)].
Definition in_cells (a b e : R) (x : nat) : list R := [if (element ring_mesh x =? 0)%nat then a else b; 0; 0; e].
Definition ring_flow (a b : R) : unknowns :=
  mk_unknowns (in_cells a b (25 / 28 * (a + b))) (fun _ => [(a + b) / 2; 0; 0; 25 / 28 * (a + b)]) (fun _ => no_grads).
Definition ring_tests : test -> Prop := fun t => exists k A B, (k < 4)%nat /\ t = constant_test 2 ring_mesh k A B.

Lemma ring_flux a b y : 0 < a + b -> In y [2; 3; 4; 5]%nat ->
  convection_Fn air ring_mesh (ring_flow a b) y =
  Ok [(if (element ring_mesh y =? 0)%nat then a else b) - (a + b) / 2; 5 / 14 * (a + b) * nth 0 (normal ring_mesh y) 0; 0; 0].
Proof.
  intros P I. set (st := mk_state ((a + b) / 2) [0; 0] (5 / 14 * (a + b))).
  assert (V : valid st) by (split; cbn [st st_rho st_p]; lra).
  assert (G : 1 < s_gamma air) by (cbn; lra).
  assert (E : uUhat (ring_flow a b) y = conservative_list (s_gamma air) st).
  { unfold conservative_list. cbn. unfold st, q_rho_E, q_E, q_Ei, q_rho_Ei, q_Ek. cbn. repeat (apply f_equal2; [field; lra|]). reflexivity. }
  assert (Ln : length (normal ring_mesh y) = 2%nat /\ inner (st_u st) (normal ring_mesh y) = 0 /\ nth 1 (normal ring_mesh y) 0 = 0).
  { destruct I as [<-|[<-|[<-|[<-|[]]]]]; cbn; repeat split; ring. }
  destruct Ln as (Ln & Un & N1).
  destruct (flux_exists air st (uU (ring_flow a b) y) (normal ring_mesh y) G V eq_refl Ln ltac:(right; left; reflexivity)) as [f Ef].
  pose proof (flux_entries air st (uU (ring_flow a b) y) (normal ring_mesh y) f G V eq_refl Ln eq_refl ltac:(left; reflexivity) Ef) as Fe. cbv zeta in Fe.
  assert (Lf : length f = 4%nat).
  { assert (Inv : exists tau, get_convective_stabilisation_matrix air false (full_fields air st) (normal ring_mesh y) = Ok tau) by (eexists; reflexivity).
    destruct Inv as [tau Ht]. exact (proj1 (numerical_flux_entries air st _ _ f tau G V eq_refl Ln Ef Ht)). }
  assert (C : q_c (s_gamma air) st = 1).
  { unfold q_c. replace (s_gamma air * st_p st / st_rho st) with 1 by (cbn; field; lra). apply sqrt_1. }
  rewrite Un, C in Fe. cbn [dissipation air s_riemann] in Fe. rewrite Rabs_R0 in Fe.
  unfold convection_Fn. rewrite E, Ef. f_equal. apply (nth_ext _ _ 0 0); [exact Lf|]. rewrite Lf. intros k K. rewrite Fe by exact K. rewrite <- E.
  set (n0 := nth 0 (normal ring_mesh y) 0) in *. set (rho := if (element ring_mesh y =? 0)%nat then a else b).
  assert (EU : uU (ring_flow a b) y = [rho; 0; 0; 25 / 28 * (a + b)]) by reflexivity. rewrite EU. cbn [ring_flow uUhat].
  unfold normal_flux, euler_flux. cbn [st st_u st_rho st_p length total].
  clear Fe Ef Un. generalize dependent (normal ring_mesh y). intros N Ln N1 n0. generalize dependent rho. intros rho _.
  destruct k as [|[|[|[|]]]]; [| | | |lia]; cbn [nth Nat.eqb Nat.leb Nat.sub delta q_rho_E]; fold n0; rewrite ?N1; cbn; try field.
Qed.

Lemma derivative_rate d sc u x k : length (uU u x) = d -> levels_have d sc -> (k < d)%nat -> nth k (time_derivative sc (uU u x) x) 0 = rate sc u k x.
Proof.
  intros L Hl K. destruct sc as [dt n|dt n nm1]; cbn [time_derivative rate levels_have] in *.
  - rewrite vdiv_nth, vsub_nth by (rewrite Hl; exact L). reflexivity.
  - destruct (Hl x) as [L1 L2]. rewrite vdiv_nth, vadd_nth, vsub_nth, !vscale_nth by (rewrite ?vsub_length, ?vscale_length, ?L, ?L1, ?L2, ?Nat.min_id; reflexivity). reflexivity.
Qed.

Lemma ring_solves a b sc : 0 < a + b -> levels_have 4 sc ->
  rate sc (ring_flow a b) 0 0 = b - a -> rate sc (ring_flow a b) 0 1 = a - b ->
  (forall k x, (0 < k < 4)%nat -> (x < 2)%nat -> rate sc (ring_flow a b) k x = 0) ->
  solves air ring_mesh ring_rules [] [] sc ring_tests (ring_flow a b).
Proof.
  intros P Hl R0 R1 R2 t (k & A & B & K & ->). unfold weak_form. cbn [air s_law ring_rules r_cvol r_cbnd r_time boundary_form domain_form].
  set (t := constant_test 2 ring_mesh k A B).
  set (fl := fun y => [(if (element ring_mesh y =? 0)%nat then a else b) - (a + b) / 2; 5 / 14 * (a + b) * nth 0 (normal ring_mesh y) 0; 0; 0]).
  assert (Fl : forall (w : R) y, In (w, y) [(1, 2%nat); (1, 3%nat); (1, 4%nat); (1, 5%nat)] -> convection_Fn air ring_mesh (ring_flow a b) y = Ok (fl y)).
  { intros w y I. apply ring_flux; [exact P|]. cbn in I. repeat destruct I as [I|I]; try (injection I as _ <-; cbn; tauto). destruct I. }
  unfold convection_form.
  rewrite (integral_make _ _ (fun _ => 0)).
  2:{ intros w x _. assert (Inv : exists F, convection_F air (ring_flow a b) x = Ok F) by (eexists; reflexivity). destruct Inv as [F EF]. rewrite EF. cbn [bind].
      unfold t, constant_test. cbn [tdV]. rewrite tabulate_zero, L_Weak.inner_zero. f_equal. ring. }
  rewrite (integral_make _ _ (fun y => if A (element ring_mesh y) then nth k (fl y) 0 else 0)).
  2:{ intros w y I. rewrite (Fl w y I). cbn [bind]. f_equal. unfold t, constant_test. cbn [tV]. apply (tested _ _ 4). exact K. }
  rewrite (integral_make _ _ (fun y => - (if B (facet ring_mesh y) then nth k (fl y) 0 else 0))).
  2:{ intros w y I. rewrite (Fl w y I). cbn [bind]. f_equal. unfold t, constant_test. cbn [tVhat]. rewrite (tested _ _ 4) by exact K. unfold mask. cbn [ring_mesh outer_facet]. ring. }
  unfold time_form.
  rewrite (integral_make _ _ (fun x => if A (element ring_mesh x) then rate sc (ring_flow a b) k x else 0)).
  2:{ intros w x I. f_equal. unfold t, constant_test. cbn [tV]. rewrite (tested _ _ 4) by exact K. rewrite (derivative_rate 4) by (trivial; reflexivity). reflexivity. }
  cbn [bind weighted ring_mesh element facet]. apply f_equal.
  destruct k as [|k].
  - rewrite R0, R1. unfold fl. cbn [nth ring_mesh element normal Nat.eqb]. destruct (A 0%nat), (A 1%nat), (B 0%nat), (B 1%nat); lra.
  - rewrite !R2 by lia. unfold fl. destruct k as [|[|[|]]]; [| | |lia]; cbn [nth ring_mesh element normal Nat.eqb]; destruct (A 0%nat), (A 1%nat), (B 0%nat), (B 1%nat); lra.
Qed.

Lemma ring_shape a b : 0 < a + b ->
  has_constants 2 ring_mesh ring_tests /\ positive_rule (r_time ring_rules) /\ positive_rule (r_cbnd ring_rules) /\
  unit_normals 2 ring_mesh (r_cbnd ring_rules) /\ physical_facets 2 (ring_flow a b) (r_cbnd ring_rules) /\ piecewise_constant ring_mesh (uU (ring_flow a b)).
Proof.
  intros P. split; [intros k A B K; exists k, A, B; split; [exact K|reflexivity]|].
  split; [intros w x I; cbn in I; repeat destruct I as [I|I]; try (injection I as <- _; lra); destruct I|].
  split; [intros w x I; cbn in I; repeat destruct I as [I|I]; try (injection I as <- _; lra); destruct I|].
  split; [intros w x I; cbn in I; repeat destruct I as [I|I]; try (injection I as _ <-; cbn; split; [reflexivity|ring]); destruct I|].
  split; [intros w x _; unfold physical; cbn; split; [reflexivity|]; split; [lra|nra]|].
  intros x y E. unfold ring_flow. cbn [uU]. unfold in_cells. rewrite E. reflexivity.
Qed.

(** The weighted difference of two physical levels from which BDF2 starts may have no gas: then two physical levels give a
    cell with negative density and negative pressure, though the facets are physical. *)
Theorem c85_bdf2_refuted :
  let n := in_cells 1 4 (25 / 14) in let nm1 := in_cells 9 5 (25 / 14) in let u := ring_flow (-1) 3 in
  solves air ring_mesh ring_rules [] [] (BDF (1 / 4) n nm1) ring_tests u /\
  physical_facets 2 u (r_cbnd ring_rules) /\ piecewise_constant ring_mesh (uU u) /\
  (forall x, physical 2 (n x) /\ physical 2 (nm1 x)) /\ nth 0 (uU u 0%nat) 0 < 0.
Proof.
  cbv zeta. destruct (ring_shape (-1) 3 ltac:(lra)) as (_ & _ & _ & _ & F & Q).
  split.
  { apply ring_solves; [lra|intros x; split; reflexivity|cbn; field|cbn; field|].
    intros k x K X. destruct k as [|[|[|[|]]]]; [lia| | | |lia]; destruct x as [|[|]]; [| |lia| | |lia| | |lia]; cbn; field. }
  split; [exact F|]. split; [exact Q|]. split; [|cbn; lra].
  intros x. unfold physical, in_cells. destruct (element ring_mesh x =? 0)%nat; cbn; repeat split; lra.
Qed.
Print Assumptions c85_bdf2_refuted.

(** A case with different densities in the cells: all hypotheses hold and gas has flowed to the thinner cell. *)
Example c85_example : let n := in_cells (5 / 2) (1 / 2) (75 / 28) in let u := ring_flow 2 1 in
  (1 < s_gamma air /\ s_law air = Inviscid /\ s_riemann air = LaxFriedrich) /\
  (has_constants 2 ring_mesh ring_tests /\ (forall x, length (uU u x) = 4%nat) /\ levels_have 4 (IE (1 / 2) n)) /\
  solves air ring_mesh ring_rules [] [] (IE (1 / 2) n) ring_tests u /\
  (positive_rule (r_time ring_rules) /\ positive_rule (r_cbnd ring_rules) /\ unit_normals 2 ring_mesh (r_cbnd ring_rules)) /\
  (physical_facets 2 u (r_cbnd ring_rules) /\ piecewise_constant ring_mesh (uU u)) /\
  (forall x, physical 2 (carried (IE (1 / 2) n) x)) /\
  uU u 0%nat <> n 0%nat /\ physical 2 (uU u 0%nat) /\ physical 2 (uU u 1%nat).
Proof.
  cbv zeta. destruct (ring_shape 2 1 ltac:(lra)) as (C & T & B & N & F & Q).
  split; [split; [cbn; lra|split; reflexivity]|]. split; [split; [exact C|split; intros x; reflexivity]|].
  split.
  { apply ring_solves; [lra|intros x; reflexivity|cbn; field|cbn; field|].
    intros k x K X. destruct k as [|[|[|[|]]]]; [lia| | | |lia]; destruct x as [|[|]]; [| |lia| | |lia| | |lia]; cbn; field. }
  split; [split; [exact T|split; [exact B|exact N]]|]. split; [split; [exact F|exact Q]|].
  split. { intros x. cbn [carried]. unfold physical, in_cells. destruct (element ring_mesh x =? 0)%nat; cbn; repeat split; lra. }
  split. { intros E. pose proof (f_equal (fun l => nth 0 l 0) E) as E'. cbn in E'. lra. }
  split; unfold physical; cbn; repeat split; lra.
Qed.
