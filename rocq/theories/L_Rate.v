(** Rates of change of fluxes and boundary residuals along a family of unknowns that starts in a uniform flow. *)
From Coq Require Import Reals String List Arith Bool Lia Lra Permutation.
From Coquelicot Require Import Coquelicot.
From Verif Require Import Base M_Bla M_Flow M_Formulation M_Weak S_Flow S_Chars S_Formulation S_Weak S_March S_Small L_Flow L_Formulation L_Weak P_Eos P_Chars P_Jacobian P_Split P_Riemann P_Boundary L_Small L_Curve.
From Verif Require Import S_Formulation.
Import ListNotations.
Open Scope R_scope.
Open Scope list_scope.

(** The rate of the flux of component [i] in direction [j] if mass, momentum and energy change with the rate [v]. *)
Definition flux_rate (g : R) (st : state) (v : list R) (i j : nat) : R :=
  let uj := nth j (st_u st) 0 in
  let duj := d_velocity st v j in
  match i with
  | O => d_density v * uj + st_rho st * duj
  | 1%nat | 2%nat => let ui := nth (i - 1) (st_u st) 0 in
      d_density v * ui * uj + st_rho st * d_velocity st v (i - 1) * uj + st_rho st * ui * duj + d_pressure g st v * delta (i - 1) j
  | _ => (nth 3 v 0 + d_pressure g st v) * uj + (q_rho_E g st + st_p st) * duj
  end.

Lemma flux_derive_gen g st ux uy (f0 f1 f2 f3 : R -> R) (v : list R) : 1 < g -> valid st -> st_u st = [ux; uy] ->
  f0 0 = st_rho st -> f1 0 = st_rho st * ux -> f2 0 = st_rho st * uy -> f3 0 = st_p st / (g - 1) + st_rho st * (ux * ux + uy * uy) / 2 ->
  is_derive f0 0 (nth 0 v 0) -> is_derive f1 0 (nth 1 v 0) -> is_derive f2 0 (nth 2 v 0) -> is_derive f3 0 (nth 3 v 0) ->
  forall i j, (i < 4)%nat -> (j < 2)%nat ->
  is_derive (fun e => euler_flux g 2 (mk_state (f0 e) [f1 e / f0 e; f2 e / f0 e] ((g - 1) * (f3 e - (f1 e * f1 e + f2 e * f2 e) / (2 * f0 e)))) i j) 0 (flux_rate g st v i j).
Proof.
  intros G [R0 P0] Eu F0 F1 F2 F3 E0 E1 E2 E3 i j I J.
  assert (X0 := ex_intro _ _ E0 : ex_derive f0 0). assert (X1 := ex_intro _ _ E1 : ex_derive f1 0).
  assert (X2 := ex_intro _ _ E2 : ex_derive f2 0). assert (X3 := ex_intro _ _ E3 : ex_derive f3 0).
  apply is_derive_unique in E0, E1, E2, E3.
  assert (Q : q_rho_E g st = st_p st / (g - 1) + st_rho st * (ux * ux + uy * uy) / 2).
  { unfold q_rho_E, q_E, q_Ei, q_rho_Ei, q_Ek. rewrite Eu. cbn [inner]. field. lra. }
  unfold flux_rate, d_density, d_velocity, d_pressure. rewrite Eu, Q.
  unfold euler_flux, q_rho_E, q_E, q_Ei, q_rho_Ei, q_Ek. cbn [st_rho st_u st_p inner].
  assert (NZ : f0 0 <> 0) by lra. assert (NG : g - 1 <> 0) by lra.
  four i I; destruct j as [|[|j]]; try (exfalso; lia); unfold delta; cbn [nth Nat.eqb Nat.leb Nat.sub Nat.add].
  all: auto_derive; [repeat split; trivial; try lra|].
  all: change (Derive (fun x => f0 x) 0 = nth 0 v 0) in E0; change (Derive (fun x => f1 x) 0 = nth 1 v 0) in E1.
  all: change (Derive (fun x => f2 x) 0 = nth 2 v 0) in E2; change (Derive (fun x => f3 x) 0 = nth 3 v 0) in E3.
  all: rewrite ?E0, ?E1, ?E2, ?E3, ?F0, ?F1, ?F2, ?F3; field; lra.
Qed.

Ltac cont_tac := repeat (cbv beta; lazymatch goal with
  | |- continuous (fun _ => ?a) 0 => apply (cconst a)
  | |- continuous (fun e => @?a e + @?b e) 0 => apply (cplus a b)
  | |- continuous (fun e => @?a e - @?b e) 0 => apply (cminus a b)
  | |- continuous (fun e => @?a e / @?b e) 0 => apply (cdiv a b)
  | |- continuous (fun e => @?a e * @?b e) 0 => apply (cmult a b)
  | |- continuous (fun e => - @?a e) 0 => apply (copp a)
  | |- continuous (fun e => @?a e ^ 2) 0 => apply (csqr a)
  | |- continuous _ 0 => assumption
  end).

Section Curve.
Variables (s : settings) (st : state) (ux uy : R) (C : R -> list R) (v : list R).
Hypothesis G : 1 < s_gamma s.
Hypothesis V : valid st.
Hypothesis Eu : st_u st = [ux; uy].
Hypothesis D2 : s_dim s = 2%nat.
Hypothesis C0 : C 0 = conservative_list (s_gamma s) st.
Hypothesis LC : forall e, length (C e) = 4%nat.
Hypothesis DC : forall k, (k < 4)%nat -> is_derive (fun e => nth k (C e) 0) 0 (nth k v 0).
Let g := s_gamma s.

Definition cr (e : R) : R := nth 0 (C e) 0.
Definition cx (e : R) : R := nth 1 (C e) 0 / nth 0 (C e) 0.
Definition cy (e : R) : R := nth 2 (C e) 0 / nth 0 (C e) 0.
Definition cp (e : R) : R := (s_gamma s - 1) * (nth 3 (C e) 0 - (nth 1 (C e) 0 * nth 1 (C e) 0 + nth 2 (C e) 0 * nth 2 (C e) 0) / (2 * nth 0 (C e) 0)).
Definition state_at (e : R) : state := mk_state (cr e) [cx e; cy e] (cp e).
Definition cc (e : R) : R := q_c (s_gamma s) (state_at e).

Lemma start : C 0 = [st_rho st; st_rho st * ux; st_rho st * uy; st_p st / (g - 1) + st_rho st * (ux * ux + uy * uy) / 2].
Proof.
  rewrite C0. unfold conservative_list, q_rho_u, q_rho_E, q_E, q_Ei, q_rho_Ei, q_Ek. rewrite Eu. cbn [map app inner]. destruct V. fold g in G |- *.
  match goal with |- [_; _; _; ?a] = [_; _; _; ?b] => assert (E : a = b) by (field; lra); now rewrite E end.
Qed.

Lemma cr_0 : cr 0 = st_rho st. Proof. unfold cr. now rewrite start. Qed.
Lemma cx_0 : cx 0 = ux. Proof. unfold cx. rewrite start. cbn [nth]. destruct V. field. lra. Qed.
Lemma cy_0 : cy 0 = uy. Proof. unfold cy. rewrite start. cbn [nth]. destruct V. field. lra. Qed.
Lemma cp_0 : cp 0 = st_p st. Proof. unfold cp. rewrite start. cbn [nth]. fold g. destruct V. fold g in G. field. lra. Qed.
Lemma state_at_0 : state_at 0 = st.
Proof. unfold state_at. rewrite cr_0, cx_0, cy_0, cp_0. destruct st as [r u p]. cbn in Eu |- *. now rewrite Eu. Qed.

Lemma ccomp k : (k < 4)%nat -> cont (fun e => nth k (C e) 0).
Proof. intros K. exact (derive_cont _ _ (DC k K)). Qed.
Lemma nz0 : nth 0 (C 0) 0 <> 0. Proof. rewrite start. cbn [nth]. destruct V. lra. Qed.
Lemma cr_cont : cont cr. Proof. apply (ccomp 0). lia. Qed.
Lemma cx_cont : cont cx. Proof. unfold cx. apply cdiv; [apply ccomp; lia|apply ccomp; lia|exact nz0]. Qed.
Lemma cy_cont : cont cy. Proof. unfold cy. apply cdiv; [apply ccomp; lia|apply ccomp; lia|exact nz0]. Qed.
Lemma cp_cont : cont cp.
Proof.
  pose proof (ccomp 0 ltac:(lia)). pose proof (ccomp 1 ltac:(lia)). pose proof (ccomp 2 ltac:(lia)). pose proof (ccomp 3 ltac:(lia)). pose proof nz0. unfold cp. cont_tac. lra.
Qed.
Lemma cc_cont : cont cc.
Proof. pose proof cr_cont. pose proof cp_cont. unfold cc, q_c, state_at. cbn [st_p st_rho]. apply csqrt. cont_tac. rewrite cr_0. destruct V. lra. Qed.
Lemma cc_0 : cc 0 = q_c g st. Proof. unfold cc. now rewrite state_at_0. Qed.

Lemma state_conservative e : 0 < cr e -> conservative_list g (state_at e) = C e.
Proof.
  intros P. unfold state_at, conservative_list, q_rho_u, q_rho_E, q_E, q_Ei, q_rho_Ei, q_Ek. cbn [st_rho st_u st_p map app inner]. pose proof (LC e) as L. unfold cr, cx, cy, cp in *. fold g in G |- *.
  destruct (C e) as [|a [|b [|c' [|d [|]]]]]; try discriminate L. cbn [nth] in *.
  match goal with |- [_; ?x; ?y; ?z] = [_; ?x'; ?y'; ?z'] => assert (E1 : x = x') by (field; lra); assert (E2 : y = y') by (field; lra); assert (E3 : z = z') by (field; lra); now rewrite E1, E2, E3 end.
Qed.

Lemma near_state : locally 0 (fun e => valid (state_at e) /\ conservative_list g (state_at e) = C e).
Proof.
  assert (A : locally 0 (fun e => 0 < cr e)) by (apply cpos; [apply cr_cont|rewrite cr_0; apply V]).
  assert (B : locally 0 (fun e => 0 < cp e)) by (apply cpos; [apply cp_cont|rewrite cp_0; apply V]).
  generalize (filter_and _ _ A B). apply filter_imp. intros e [H1 H2]. split; [now split|]. now apply state_conservative.
Qed.

(** ** Continuity of the matrices *)

Section Direction.
Variables (n0 n1 : R) (n : list R).
Hypothesis N : unit2 n n0 n1.

Definition Pe (e : R) : matrix := PP (s_gamma s) (cr e) (cx e) (cy e) (cc e) n0 n1.
Definition Qe (e : R) : matrix := QQ (s_gamma s) (cr e) (cx e) (cy e) (cc e) n0 n1.
Definition une (e : R) : R := cx e * n0 + cy e * n1.

Lemma cc_pos : 0 < cc 0. Proof. rewrite cc_0. apply (q_c_pos g st G V). Qed.

Lemma Pe_cont i j : (i < 4)%nat -> (j < 4)%nat -> cont (fun e => entry (Pe e) i j).
Proof.
  intros I J. pose proof cr_cont. pose proof cx_cont. pose proof cy_cont. pose proof cc_cont. pose proof cc_pos as P. unfold Pe, PP. fold g in G |- *.
  four i I; four j J; unfold entry, mat4; cbn [cols entries Nat.mul Nat.add nth inner]; cont_tac; try lra; cbn [pow]; try (apply Rgt_not_eq; repeat apply Rmult_lt_0_compat; lra).
Qed.
Lemma Qe_cont i j : (i < 4)%nat -> (j < 4)%nat -> cont (fun e => entry (Qe e) i j).
Proof.
  intros I J. pose proof cr_cont. pose proof cx_cont. pose proof cy_cont. pose proof cc_cont. pose proof cc_pos as P. pose proof cr_0 as R0. destruct V as [R1 _]. unfold Qe, QQ. fold g in G |- *.
  four i I; four j J; unfold entry, mat4; cbn [cols entries Nat.mul Nat.add nth inner]; cont_tac; lra.
Qed.

Lemma wave_cont (l : R -> nat -> R) i j : (forall k, (k < 4)%nat -> cont (fun e => l e k)) -> (i < 4)%nat -> (j < 4)%nat -> cont (fun e => entry (wave (Pe e) (Qe e) (l e)) i j).
Proof.
  intros L I J. apply (continuous_ext (fun e => total 4 (fun k => entry (Pe e) i k * l e k * entry (Qe e) k j))); [intros e; symmetry; now apply wave_entry|].
  apply (ctotal 4 (fun k e => entry (Pe e) i k * l e k * entry (Qe e) k j)). intros k K.
  apply (cmult (fun e => entry (Pe e) i k * l e k)); [|now apply Qe_cont]. apply (cmult (fun e => entry (Pe e) i k)); [now apply Pe_cont|now apply L].
Qed.

Lemma une_cont : cont une.
Proof. pose proof cx_cont. pose proof cy_cont. unfold une. cont_tac. Qed.
Lemma une_0 : une 0 = ux * n0 + uy * n1. Proof. unfold une. now rewrite cx_0, cy_0. Qed.

Lemma speed_cont k : cont (fun e => wave_speed (une e) (cc e) k).
Proof. pose proof une_cont. pose proof cc_cont. destruct k as [|[|[|k]]]; cbn [wave_speed]; cont_tac. Qed.

Lemma dissipation_cont r k : cont (fun e => dissipation r (une e) (cc e) k).
Proof.
  pose proof une_cont. pose proof cc_cont. pose proof cc_pos.
  destruct r as [| | | |th]; cbn [dissipation].
  - apply cmax; [apply speed_cont|apply cconst].
  - apply cplus; [now apply cabs|assumption].
  - apply cabs. apply speed_cont.
  - apply cmax; [now apply cplus|apply cconst].
  - apply cmult; [apply cmax; [now apply cplus|apply cconst]|].
    assert (A : cont (fun e => Rmax (Rabs (une e) / (Rabs (une e) + cc e)) th)).
    { apply cmax; [|apply cconst]. apply cdiv; [now apply cabs|apply cplus; [now apply cabs|assumption]|]. pose proof (Rabs_pos (une 0)). lra. }
    destruct k as [|[|[|k]]]; [apply cconst|exact A|exact A|apply cconst].
Qed.

Lemma part_cont t k : cont (fun e => part t (wave_speed (une e) (cc e) k)).
Proof.
  pose proof (speed_cont k). destruct t; cbn [part]; [assumption|now apply cabs|apply cmin; [assumption|apply cconst]|apply cmax; [assumption|apply cconst]|apply cconst].
Qed.

Lemma selected_near t k : wave_speed (une 0) (cc 0) k <> 0 -> locally 0 (fun e => selected t (wave_speed (une 0) (cc 0) k) = selected t (wave_speed (une e) (cc e) k)).
Proof.
  intros NZ. pose proof (speed_cont k) as C1. destruct (Rdichotomy _ _ NZ) as [H|H].
  - generalize (cneg _ C1 H). apply filter_imp. intros e He. unfold selected. destruct t; try reflexivity; repeat match goal with |- context [Rlt_dec ?a ?b] => destruct (Rlt_dec a b) end; lra.
  - generalize (cpos _ C1 H). apply filter_imp. intros e He. unfold selected. destruct t; try reflexivity; repeat match goal with |- context [Rlt_dec ?a ?b] => destruct (Rlt_dec a b) end; lra.
Qed.
End Direction.

(** ** Rates of the fluxes *)

Lemma flux_derive i j : (i < 4)%nat -> (j < 2)%nat -> is_derive (fun e => euler_flux g 2 (state_at e) i j) 0 (flux_rate g st v i j).
Proof.
  intros I J. pose proof start as St.
  exact (flux_derive_gen g st ux uy (fun e => nth 0 (C e) 0) (fun e => nth 1 (C e) 0) (fun e => nth 2 (C e) 0) (fun e => nth 3 (C e) 0) v G V Eu
    (f_equal (fun l => nth 0 l 0) St) (f_equal (fun l => nth 1 l 0) St) (f_equal (fun l => nth 2 l 0) St) (f_equal (fun l => nth 3 l 0) St)
    (DC 0%nat ltac:(lia)) (DC 1%nat ltac:(lia)) (DC 2%nat ltac:(lia)) (DC 3%nat ltac:(lia)) i j I J).
Qed.
End Curve.
