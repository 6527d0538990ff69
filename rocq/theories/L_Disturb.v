(** The weak form linearised at a uniform flow. *)
From Coq Require Import Reals String List Arith Bool Lia Lra Permutation.
From Coquelicot Require Import Coquelicot.
From Verif Require Import Base M_Bla M_Flow M_Formulation M_Weak S_Flow S_Chars S_Formulation S_Weak S_March S_Small L_Flow L_Formulation L_Weak P_Eos P_Chars P_Jacobian P_Split P_Riemann P_Boundary P_Uniform L_Small L_Curve L_Rate L_Linear L_Gram.
From Verif Require Import S_Formulation.
Import ListNotations.
Open Scope R_scope.
Open Scope list_scope.

Lemma derives_tested n f v a t F : vderives n f v -> length t = n -> (forall eps, F eps = let* r := f eps in Ok (a * inner r t)) -> derives F (a * inner v t).
Proof. intros D L E. apply (derives_loc (fun eps => let* r := f eps in Ok (a * inner r t))); [apply filter_forall; intros eps; now rewrite E|now apply derives_inner with n]. Qed.

Section Form.
Variables (s : settings) (m : mesh) (r : rules) (bs : list (rule * edge)) (ls : list sponge) (st : state) (ux uy : R).
Variables (u : R -> unknowns) (e t : test) (sc : R -> scheme) (dd : nat -> list R).
Hypothesis G : 1 < s_gamma s.
Hypothesis V : valid st.
Hypothesis Eu : st_u st = [ux; uy].
Hypothesis D2 : s_dim s = 2%nat.
Hypothesis Inv : s_law s = Inviscid.
Hypothesis F : family s st u e.
Hypothesis We : well_formed 2 e.
Hypothesis Wt : well_formed 2 t.
Hypothesis Pm : plane_mesh m (r_cbnd r).
Hypothesis En : enclosed s m st (r_cbnd r) bs.
Hypothesis Ca : calms s st ls.
Hypothesis Td : forall x, vderives 4 (fun eps => Ok (time_derivative (sc eps) (uU (u eps) x) x)) (dd x).
Let g := s_gamma s.

Definition nx (m : mesh) (y : nat) : R := nth 0 (normal m y) 0.
Definition ny (m : mesh) (y : nat) : R := nth 1 (normal m y) 0.
Definition flux_at (s : settings) (m : mesh) (st : state) (ux uy : R) (e : test) (y : nat) : list R := flux_change s st ux uy (nx m y) (ny m y) (tV e y) (tVhat e y).
Definition edge_change (s : settings) (st : state) (ux uy : R) (k : edge) (n0 n1 : R) (vU vH : list R) : list R :=
  match k with FarEdge b _ => far_change s st ux uy b n0 n1 vU vH | SlipEdge => slip_change n0 n1 vU vH end.

Fixpoint edge_sum (bs : list (rule * edge)) (t : test) : R :=
  match bs with
  | [] => 0
  | (q, k) :: bs' => weighted q (fun y => inner (edge_change s st ux uy k (nx m y) (ny m y) (tV e y) (tVhat e y)) (tVhat t y)) + edge_sum bs' t
  end.
Fixpoint layer_sum (ls : list sponge) (t : test) : R :=
  match ls with [] => 0 | l :: ls' => weighted (s_rule l) (fun x => inner (vscale (s_function l x) (tV e x)) (tV t x)) + layer_sum ls' t end.

Definition linear_form (t : test) : R :=
  weighted (r_cvol r) (fun x => -1 * inner (entries (tabulate 4 2 (flux_rate (s_gamma s) st (tV e x)))) (entries (tdV t x)))
  + weighted (r_cbnd r) (fun y => 1 * inner (flux_at s m st ux uy e y) (tV t y))
  + weighted (r_cbnd r) (fun y => - mask m y * inner (flux_at s m st ux uy e y) (tVhat t y))
  + 0 + edge_sum bs t + layer_sum ls t + weighted (r_time r) (fun x => 1 * inner (dd x) (tV t x)).

Lemma unit_at w y : In (w, y) (r_cbnd r) -> unit2 (normal m y) (nx m y) (ny m y).
Proof. intros I. destruct Pm as [_ H]. destruct (H w y I) as (n0 & n1 & E & N). unfold nx, ny. rewrite E. cbn [nth]. split; [reflexivity|exact N]. Qed.

Lemma edges_in q k w y : In (q, k) bs -> In (w, y) q -> In (w, y) (r_cbnd r) /\ suits s st (normal m y) k.
Proof.
  intros Ib I. destruct En as [Pe (side & dir & H)]. split; [|apply (H q k w y Ib I)].
  assert (J : In (w, y) (concat (map fst bs))). { apply in_concat. exists q. split; [exact (in_map fst bs (q, k) Ib)|exact I]. }
  apply (Permutation_in _ (Permutation_sym Pe)) in J. now apply in_at_points in J.
Qed.

Let U0 x : uU (u 0) x = conservative_list (s_gamma s) st. Proof. apply (proj1 F x). Qed.
Let H0 x : uUhat (u 0) x = conservative_list (s_gamma s) st. Proof. apply (proj1 F x). Qed.
Let LU x eps : length (uU (u eps) x) = 4%nat. Proof. apply (proj1 (proj2 F x) eps). Qed.
Let LH x eps : length (uUhat (u eps) x) = 4%nat. Proof. apply (proj1 (proj2 F x) eps). Qed.
Let DU x k : (k < 4)%nat -> is_derive (fun eps => nth k (uU (u eps) x) 0) 0 (nth k (tV e x) 0). Proof. intros K. apply (proj2 (proj2 F x) k K). Qed.
Let DH x k : (k < 4)%nat -> is_derive (fun eps => nth k (uUhat (u eps) x) 0) 0 (nth k (tVhat e x) 0). Proof. intros K. apply (proj2 (proj2 F x) k K). Qed.
Let LvU x : length (tV e x) = 4%nat. Proof. apply (We x). Qed.
Let LvH x : length (tVhat e x) = 4%nat. Proof. apply (We x). Qed.

Lemma flux_at_vderives w y : In (w, y) (r_cbnd r) -> vderives 4 (fun eps => convection_Fn s m (u eps) y) (flux_at s m st ux uy e y).
Proof.
  intros I. unfold convection_Fn, flux_at.
  apply (flux_vderives s st ux uy G V Eu D2 (fun eps => uU (u eps) y) (fun eps => uUhat (u eps) y) (tV e y) (tVhat e y)); auto. now apply (unit_at w).
Qed.

Lemma edge_vderives q k w y : In (q, k) bs -> In (w, y) q -> vderives 4 (fun eps => edge_vector s m (u eps) k y) (edge_change s st ux uy k (nx m y) (ny m y) (tV e y) (tVhat e y)).
Proof.
  intros Ib I. destruct (edges_in q k w y Ib I) as [J Su]. pose proof (unit_at w y J) as N. destruct k as [b fields|]; cbn [edge_vector edge_change].
  - destruct Su as [Ef Nz]. apply (far_vderives s st ux uy G V Eu D2 (fun eps => uU (u eps) y) (fun eps => uUhat (u eps) y) (tV e y) (tVhat e y)); auto.
    intros j Hj. specialize (Nz j Hj). destruct N as [E _]. unfold lam0. rewrite E, Eu in Nz. cbn [inner] in Nz. rewrite Rplus_0_r in Nz. exact Nz.
  - apply (wall_vderives s D2 (fun eps => uU (u eps) y) (fun eps => uUhat (u eps) y) (tV e y) (tVhat e y)); auto.
Qed.

Lemma edges_derive bs' : (forall qk, In qk bs' -> In qk bs) -> derives (fun eps => boundary_form (edge_terms s m bs' (u eps)) t) (edge_sum bs' t).
Proof.
  induction bs' as [|[q k] bs' IH]; intros Sub; cbn [edge_terms map boundary_form edge_sum fst snd b_rule b_vector]; [apply derives_const|].
  apply derives_plus; [|apply IH; intros; apply Sub; now right].
  apply (derives_integral (fun eps y => let* r0 := edge_vector s m (u eps) k y in Ok (inner r0 (tVhat t y)))). intros w y I.
  apply (derives_value _ (1 * inner (edge_change s st ux uy k (nx m y) (ny m y) (tV e y) (tVhat e y)) (tVhat t y))); [ring|].
  apply (derives_tested 4 _ _ 1 (tVhat t y) _ (edge_vderives q k w y (Sub _ (or_introl eq_refl)) I)); [apply (Wt y)|].
  intros eps. destruct (edge_vector s m (u eps) k y); cbn [bind]; [now rewrite Rmult_1_l|reflexivity].
Qed.

Lemma layers_derive ls' : (forall l, In l ls' -> In l ls) -> derives (fun eps => domain_form s ls' (u eps) t) (layer_sum ls' t).
Proof.
  induction ls' as [|l ls' IH]; intros Sub; cbn [domain_form layer_sum]; [apply derives_const|].
  apply derives_plus; [|apply IH; intros; apply Sub; now right].
  apply (derives_integral (fun eps x => let* r0 := sponge_residual s (s_target l x) (s_function l x) (uU (u eps) x) in Ok (inner r0 (tV t x)))). intros w x I.
  apply (derives_value _ (1 * inner (vscale (s_function l x) (tV e x)) (tV t x))); [ring|].
  destruct (Ca l (Sub l (or_introl eq_refl))) as [_ Tg]. destruct (Tg w x I) as [Ef _].
  apply (derives_tested 4 _ _ 1 (tV t x) _ (sponge_vderives s st ux uy Eu (fun eps => uU (u eps) x) (tV e x) (LU x) (DU x) (LvU x) (s_target l x) (s_function l x) Ef)); [apply (Wt x)|].
  intros eps. cbv beta. destruct (sponge_residual s (s_target l x) (s_function l x) (uU (u eps) x)); cbn [bind]; [now rewrite Rmult_1_l|reflexivity].
Qed.

Lemma weak_form_derives : derives (fun eps => weak_form s m r (edge_terms s m bs (u eps)) ls (sc eps) (u eps) t) (linear_form t).
Proof.
  assert (A1 : derives (fun eps => integral (r_cvol r) (fun x => let* F := convection_F s (u eps) x in Ok (- inner (entries F) (entries (tdV t x)))))
    (weighted (r_cvol r) (fun x => -1 * inner (entries (tabulate 4 2 (flux_rate (s_gamma s) st (tV e x)))) (entries (tdV t x))))).
  { apply (derives_integral (fun eps x => let* F := convection_F s (u eps) x in Ok (- inner (entries F) (entries (tdV t x))))). intros w x _.
    apply (derives_tested 8 _ _ (-1) (entries (tdV t x)) _ (volume_vderives s st ux uy G V Eu D2 (fun eps => uU (u eps) x) (tV e x) (tV e x) (U0 x) (LU x) (DU x) (LvU x) (LvU x))); [apply (Wt x)|].
    intros eps. cbv beta. unfold convection_F.
    destruct (let* V := get_conservative_fields s (uU (u eps) x) in get_convective_flux s false V); cbn [bind]; [f_equal; ring|reflexivity]. }
  assert (A2 : derives (fun eps => integral (r_cbnd r) (fun y => let* Fn := convection_Fn s m (u eps) y in Ok (inner Fn (tV t y))))
    (weighted (r_cbnd r) (fun y => 1 * inner (flux_at s m st ux uy e y) (tV t y)))).
  { apply (derives_integral (fun eps y => let* Fn := convection_Fn s m (u eps) y in Ok (inner Fn (tV t y)))). intros w y I.
    apply (derives_tested 4 _ _ 1 (tV t y) _ (flux_at_vderives w y I)); [apply (Wt y)|]. intros eps. cbv beta. destruct (convection_Fn s m (u eps) y); cbn [bind]; [now rewrite Rmult_1_l|reflexivity]. }
  assert (A3 : derives (fun eps => integral (r_cbnd r) (fun y => let* Fn := convection_Fn s m (u eps) y in Ok (- mask m y * inner Fn (tVhat t y))))
    (weighted (r_cbnd r) (fun y => - mask m y * inner (flux_at s m st ux uy e y) (tVhat t y)))).
  { apply (derives_integral (fun eps y => let* Fn := convection_Fn s m (u eps) y in Ok (- mask m y * inner Fn (tVhat t y)))). intros w y I.
    exact (derives_inner 4 _ _ (- mask m y) (tVhat t y) (flux_at_vderives w y I) (proj1 (proj2 (Wt y)))). }
  assert (A4 : derives (fun eps => time_form (sc eps) (r_time r) (u eps) t) (weighted (r_time r) (fun x => 1 * inner (dd x) (tV t x)))).
  { unfold time_form. apply (derives_integral (fun eps x => Ok (inner (time_derivative (sc eps) (uU (u eps) x) x) (tV t x)))). intros w x _.
    apply (derives_tested 4 _ _ 1 (tV t x) _ (Td x)); [apply (Wt x)|]. intros eps. cbn [bind]. now rewrite Rmult_1_l. }
  assert (A5 := edges_derive bs (fun _ I => I)). assert (A6 := layers_derive ls (fun _ I => I)).
  unfold weak_form, convection_form. rewrite Inv. unfold linear_form.
  destruct A1 as (h1 & L1 & E1), A2 as (h2 & L2 & E2), A3 as (h3 & L3 & E3), A4 as (h4 & L4 & E4), A5 as (h5 & L5 & E5), A6 as (h6 & L6 & E6).
  exists (fun eps => h1 eps + h2 eps + h3 eps + 0 + h5 eps + h6 eps + h4 eps). split.
  - generalize (filter_and _ _ (filter_and _ _ (filter_and _ _ L1 L2) (filter_and _ _ L3 L4)) (filter_and _ _ L5 L6)). apply filter_imp.
    intros eps [[[-> ->] [-> ->]] [-> ->]]. reflexivity.
  - repeat apply @is_derive_plus; trivial. apply @is_derive_const.
Qed.
End Form.

(** ** The energy of the disturbance *)

(** The dissipation of the Riemann solvers. *)
Lemma dissipation_bounds rs un c k : 0 < c -> (k < 4)%nat -> 0 <= dissipation rs un c k /\ wave_speed un c k <= dissipation rs un c k.
Proof.
  intros C K.
  assert (A : Rabs un = un \/ Rabs un = - un) by (unfold Rabs; destruct (Rcase_abs un); auto).
  assert (A0 : 0 <= Rabs un) by apply Rabs_pos. pose proof (Rle_abs un) as A1.
  assert (Hm : 0 <= Rmax (un + c) 0 /\ un + c <= Rmax (un + c) 0) by (split; [apply Rmax_r|apply Rmax_l]).
  assert (W : wave_speed un c k <= un + c) by (four k K; cbn [wave_speed]; lra).
  destruct rs as [| | | |th]; cbn [dissipation].
  - split; [apply Rmax_r|apply Rmax_l].
  - split; lra.
  - split; [apply Rabs_pos|apply Rle_abs].
  - split; [apply Hm|lra].
  - assert (T0 : 0 <= Rabs un / (Rabs un + c)) by (apply Rle_mult_inv_pos; lra).
    assert (Tm : Rabs un / (Rabs un + c) <= Rmax (Rabs un / (Rabs un + c)) th) by apply Rmax_l.
    assert (E1 : 0 <= Rmax (un + c) 0 * Rmax (Rabs un / (Rabs un + c)) th) by (apply Rmult_le_pos; lra).
    assert (E2 : un <= Rmax (un + c) 0 * Rmax (Rabs un / (Rabs un + c)) th).
    { destruct (Rle_dec un 0); [lra|]. assert (Ea : Rabs un = un) by lra. apply Rle_trans with ((un + c) * (Rabs un / (Rabs un + c))); [rewrite Ea; right; field; lra|].
      apply Rmult_le_compat; lra. }
    four k K; cbn [wave_speed]; lra.
Qed.

Lemma dissipation_wall rs c : 0 < c -> rs <> Upwind -> dissipation rs 0 c 0 = c /\ dissipation rs 0 c 3 = c.
Proof.
  intros C N. assert (M : Rmax (0 + c) 0 = c) by (unfold Rmax; destruct (Rle_dec _ _); lra).
  destruct rs; cbn [dissipation wave_speed]; rewrite ?M, ?Rabs_R0; try contradiction; try lra.
  unfold Rabs. destruct (Rcase_abs _), (Rcase_abs _); lra.
Qed.
