(** C80: the states on the facets between elements. *)
From Coq Require Import Reals Ranalysis5 List Arith Bool Lra Lia Permutation.
From Coquelicot Require Import Coquelicot.
From Verif Require Import Base M_Bla M_Flow M_Formulation M_Weak S_Flow S_Chars S_Formulation S_Weak L_Flow L_Formulation L_Weak P_Eos P_Chars P_Jacobian P_Split P_Riemann P_Boundary P_Unknowns P_Stress P_Initial L_Small L_Curve S_Trace S_Stress.
From Verif Require Import S_Formulation.
Import ListNotations.
Open Scope R_scope.
Open Scope list_scope.

Lemma inner_opposite u n : inner u (map Ropp n) = - inner u n.
Proof. revert n. induction u as [|x u IH]; intros [|y n]; cbn; try ring. rewrite IH. ring. Qed.

(** ** Solvers with one number for all variables *)

Lemma scalar_sum s st U U' n f f' : 1 < s_gamma s -> valid st -> length (st_u st) = s_dim s -> length n = s_dim s ->
  length U = (s_dim s + 2)%nat -> length U' = (s_dim s + 2)%nat -> s_riemann s = LaxFriedrich \/ s_riemann s = HLL ->
  get_convective_numerical_flux s U (conservative_list (s_gamma s) st) n = Ok f ->
  get_convective_numerical_flux s U' (conservative_list (s_gamma s) st) (map Ropp n) = Ok f' ->
  let un := inner (st_u st) n in let c := q_c (s_gamma s) st in
  forall i, (i < s_dim s + 2)%nat -> nth i f 0 + nth i f' 0 =
    dissipation (s_riemann s) un c 0 * (nth i U 0 - nth i (conservative_list (s_gamma s) st) 0) +
    dissipation (s_riemann s) (- un) c 0 * (nth i U' 0 - nth i (conservative_list (s_gamma s) st) 0).
Proof.
  intros G V Dim Ln LU LU' Rs H H' un c i Hi. set (Uhat := conservative_list (s_gamma s) st) in *.
  assert (Inv : forall m, exists tau, get_convective_stabilisation_matrix s false (full_fields s st) m = Ok tau).
  { intros m. unfold get_convective_stabilisation_matrix. destruct Rs as [-> | ->]; eexists; reflexivity. }
  destruct (Inv n) as (tau & Ht). destruct (Inv (map Ropp n)) as (tau' & Ht').
  assert (NE : f_Ei (full_fields s st) = None \/ f_T (full_fields s st) <> None \/ (f_rho (full_fields s st) <> None /\ f_p (full_fields s st) <> None)) by (left; reflexivity).
  rewrite (c47_conservative s st U U' n f f' tau tau' G V Dim Ln LU LU' H H' Ht Ht' i Hi). fold Uhat.
  destruct (c47_scalar s false st _ n G V (full_describes s st) ltac:(discriminate) NE Rs tau Ht) as [(R1 & C1 & _) E1].
  destruct (c47_scalar s false st _ (map Ropp n) G V (full_describes s st) ltac:(discriminate) NE Rs tau' Ht') as [(R2 & C2 & _) E2].
  rewrite map_length in R2, C2, E2. rewrite inner_opposite in E2. fold un c in E1, E2.
  assert (LUh : length Uhat = (s_dim s + 2)%nat) by (unfold Uhat; rewrite conservative_list_length; lia).
  assert (M : forall a W, length W = (s_dim s + 2)%nat -> forall t, rows t = (length n + 2)%nat -> cols t = (length n + 2)%nat ->
    (forall i j, (i < length n + 2)%nat -> (j < length n + 2)%nat -> entry t i j = a i * delta i j) ->
    nth i (mvmul t (vsub W Uhat)) 0 = a i * (nth i W 0 - nth i Uhat 0)).
  { intros a W LW t Rt Ct Et. rewrite mvmul_total by lia. rewrite Ct.
    etransitivity; [apply total_ext; intros k K; rewrite Et by lia; rewrite Rmult_assoc; reflexivity|].
    rewrite total_scale, (total_delta (fun k => nth k (vsub W Uhat) 0)) by lia. rewrite vsub_nth by lia. reflexivity. }
  rewrite (M (fun i => dissipation (s_riemann s) un c i) U LU tau R1 C1 E1), (M (fun i => dissipation (s_riemann s) (- un) c i) U' LU' tau' R2 C2 E2).
  destruct Rs as [-> | ->]; reflexivity.
Qed.

Lemma flux_exists s st U n : 1 < s_gamma s -> valid st -> length (st_u st) = s_dim s -> length n = s_dim s ->
  s_dim s = 2%nat \/ s_riemann s = LaxFriedrich \/ s_riemann s = HLL -> exists f, get_convective_numerical_flux s U (conservative_list (s_gamma s) st) n = Ok f.
Proof. intros G V Dim Ln R. exact (proj1 (c47_exists s U st n G V Dim Ln) R). Qed.

Lemma sides_positive un c : 0 < c -> 0 <= leaving un c /\ 0 <= entering un c /\ 0 < leaving un c + entering un c.
Proof. intros C. unfold leaving, entering, Rmax. destruct (Rle_dec (un + c) 0), (Rle_dec (c - un) 0); lra. Qed.

Lemma weights_sides a b x y z : 0 < a + b -> (a * (x - z) + b * (y - z) = 0 <-> z = (a * x + b * y) / (a + b)).
Proof.
  intros P. split; intros H.
  - apply (Rmult_eq_reg_r (a + b)); [|lra]. replace ((a * x + b * y) / (a + b) * (a + b)) with (a * x + b * y) by (field; lra). lra.
  - rewrite H. field. lra.
Qed.

(** Lax-Friedrichs makes the state on the facet the mean of both sides, HLL the mean weighted with the speeds of the fastest waves,
    in every dimension. *)
Theorem c80_scalar : forall s st U U' n, 1 < s_gamma s -> valid st -> length (st_u st) = s_dim s -> length n = s_dim s ->
  length U = (s_dim s + 2)%nat -> length U' = (s_dim s + 2)%nat ->
  let un := inner (st_u st) n in let c := q_c (s_gamma s) st in let Uhat := conservative_list (s_gamma s) st in
  (s_riemann s = LaxFriedrich -> (balanced s U U' st n <-> mean_of (s_dim s) 1 1 U U' Uhat)) /\
  (s_riemann s = HLL -> (balanced s U U' st n <-> mean_of (s_dim s) (leaving un c) (entering un c) U U' Uhat)).
Proof.
  intros s st U U' n G V Dim Ln LU LU' un c Uhat. pose proof (q_c_pos _ _ G V) as C0. fold c in C0.
  assert (Lo : length (map Ropp n) = s_dim s) by (rewrite map_length; exact Ln).
  assert (K : forall a b, 0 < a + b -> s_riemann s = LaxFriedrich \/ s_riemann s = HLL ->
    (forall x y, dissipation (s_riemann s) un c 0 * x + dissipation (s_riemann s) (- un) c 0 * y = 0 <-> a * x + b * y = 0) ->
    (balanced s U U' st n <-> mean_of (s_dim s) a b U U' Uhat)).
  { intros a b P Rs W. split.
    - intros (f & f' & E & E' & B) i I. apply weights_sides; [exact P|]. apply W. pose proof (scalar_sum s st U U' n f f' G V Dim Ln LU LU' Rs E E' i I) as X. rewrite (B i I) in X. symmetry. exact X.
    - intros B. destruct (flux_exists s st U n G V Dim Ln (or_intror Rs)) as (f & E). destruct (flux_exists s st U' (map Ropp n) G V Dim Lo (or_intror Rs)) as (f' & E').
      exists f, f'. split; [exact E|]. split; [exact E'|]. intros i I. rewrite (scalar_sum s st U U' n f f' G V Dim Ln LU LU' Rs E E' i I). apply W, weights_sides; [exact P|]. exact (B i I). }
  split; intros Rs.
  - apply K; [lra|now left|]. intros x y. rewrite Rs. cbn [dissipation]. rewrite Rabs_Ropp. set (a := Rabs un + c).
    assert (A : 0 < a) by (unfold a; pose proof (Rabs_pos un); lra). replace (a * x + a * y) with (a * (1 * x + 1 * y)) by ring. split; intros H; [|rewrite H; ring].
    apply Rmult_integral in H. destruct H; lra.
  - apply K; [apply sides_positive, C0|now right|]. intros x y. rewrite Rs. cbn [dissipation]. unfold leaving, entering. replace (- un + c) with (c - un) by ring. reflexivity.
Qed.
Print Assumptions c80_scalar.

(** ** Waves in the plane *)

Section Plane.
Variables (s : settings) (st : state) (ux uy n0 n1 : R) (n : list R).
Hypothesis G : 1 < s_gamma s.
Hypothesis V : valid st.
Hypothesis Eu : st_u st = [ux; uy].
Hypothesis D2 : s_dim s = 2%nat.
Hypothesis N : unit2 n n0 n1.

Lemma turned : unit2 (map Ropp n) (- n0) (- n1).
Proof. destruct N as [-> E]. split; [reflexivity|]. lra. Qed.

Definition right_waves : matrix := PP (s_gamma s) (st_rho st) ux uy (q_c (s_gamma s) st) n0 n1.
Definition left_waves : matrix := QQ (s_gamma s) (st_rho st) ux uy (q_c (s_gamma s) st) n0 n1.

Lemma waves_inverse : inverse 4 right_waves left_waves.
Proof. exact (proj1 (state_matrices s st ux uy n0 n1 n G V Eu N)). Qed.

Lemma mirrored l v : mvmul (wave (PP (s_gamma s) (st_rho st) ux uy (q_c (s_gamma s) st) (- n0) (- n1)) (QQ (s_gamma s) (st_rho st) ux uy (q_c (s_gamma s) st) (- n0) (- n1)) l) v =
  mvmul (wave right_waves left_waves (fun k => l (mirror k))) v.
Proof.
  pose proof (q_c_pos _ _ G V) as C0. destruct V as [R0 P0].
  assert (Eu' : f_u (full_fields s st) = Some [ux; uy]) by (cbn; now rewrite Eu).
  destruct (opposite_waves s (full_fields s st) (st_rho st) ux uy (q_c (s_gamma s) st) n n0 n1 eq_refl Eu' eq_refl N ltac:(lra) ltac:(lra) ltac:(lra))
    as (P & Q & P' & Q' & EP & EQ & EP' & EQ' & SP & SQ & SP' & SQ' & O).
  destruct (state_matrices s st ux uy n0 n1 n G V Eu N) as (_ & A & B). destruct (state_matrices s st ux uy (- n0) (- n1) (map Ropp n) G V Eu turned) as (_ & A' & B').
  rewrite A in EP. rewrite B in EQ. unfold opposite in EP', EQ'. rewrite A' in EP'. rewrite B' in EQ'. apply ok_inj in EP, EQ, EP', EQ'.
  fold right_waves in EP. fold left_waves in EQ. rewrite EP, EQ, EP', EQ'.
  apply acts_mvmul. split; [apply wave_shape|]. intros i j I J. rewrite wave_entry by assumption. cbn [total mirror].
  pose proof (O i j 0%nat I J ltac:(lia)) as O0. pose proof (O i j 1%nat I J ltac:(lia)) as O1. pose proof (O i j 2%nat I J ltac:(lia)) as O2. pose proof (O i j 3%nat I J ltac:(lia)) as O3.
  cbn [Nat.eqb] in O0, O1, O2, O3.
  transitivity (l 0%nat * (entry P' i 0 * entry Q' 0 j) + l 1%nat * (entry P' i 1 * entry Q' 1 j) + l 2%nat * (entry P' i 2 * entry Q' 2 j) + l 3%nat * (entry P' i 3 * entry Q' 3 j)); [ring|].
  rewrite O0, O1, O2, O3. ring.
Qed.

Definition nspeed : R := inner (st_u st) n.
Definition sound : R := q_c (s_gamma s) st.
Definition facet_state : list R := conservative_list (s_gamma s) st.
Definition here (k : nat) : R := dissipation (s_riemann s) nspeed sound k.
Definition there (k : nat) : R := dissipation (s_riemann s) (- nspeed) sound (mirror k).

Lemma nspeed_value : nspeed = ux * n0 + uy * n1.
Proof. unfold nspeed. rewrite Eu. destruct N as [-> _]. cbn. ring. Qed.

Lemma facet_state_length : length facet_state = 4%nat.
Proof. unfold facet_state. rewrite conservative_list_length, Eu. reflexivity. Qed.

(** The fluxes balance exactly if they do in every wave. *)
Lemma balanced_waves U U' : length U = 4%nat -> length U' = 4%nat ->
  (balanced s U U' st n <-> forall k, (k < 4)%nat -> here k * amplitude left_waves (vsub U facet_state) k + there k * amplitude left_waves (vsub U' facet_state) k = 0).
Proof.
  intros LU LU'. pose proof facet_state_length as LH.
  set (a := mvmul (wave right_waves left_waves here) (vsub U facet_state)). set (b := mvmul (wave right_waves left_waves there) (vsub U' facet_state)).
  assert (La : length a = 4%nat) by (unfold a; rewrite mvmul_length; reflexivity). assert (Lb : length b = 4%nat) by (unfold b; rewrite mvmul_length; reflexivity).
  pose proof (flux_value s st ux uy n0 n1 n G V Eu D2 N U) as E. pose proof (flux_value s st ux uy (- n0) (- n1) (map Ropp n) G V Eu D2 turned U') as E'.
  rewrite mirrored in E'. fold right_waves left_waves in E. rewrite <- nspeed_value in E.
  replace (ux * - n0 + uy * - n1) with (- nspeed) in E' by (rewrite nspeed_value; ring).
  change (mvmul (wave right_waves left_waves (dissipation (s_riemann s) nspeed (q_c (s_gamma s) st))) (vsub U (conservative_list (s_gamma s) st))) with a in E.
  change (mvmul (wave right_waves left_waves (fun k => dissipation (s_riemann s) (- nspeed) (q_c (s_gamma s) st) (mirror k))) (vsub U' (conservative_list (s_gamma s) st))) with b in E'.
  assert (Nf : forall i, normal_flux (s_gamma s) st (map Ropp n) i = - normal_flux (s_gamma s) st n i).
  { intros i. unfold normal_flux. rewrite Eu. destruct N as [-> _]. cbn [map length total nth]. ring. }
  assert (St : balanced s U U' st n <-> vanishes (vadd a b)).
  { split.
    - intros (f & f' & F & F' & B) i. rewrite E in F. rewrite E' in F'. apply ok_inj in F, F'. destruct (Nat.lt_ge_cases i 4) as [I|I].
      + specialize (B i ltac:(rewrite D2; exact I)). rewrite <- F, <- F', !four_list_nth, Nf in B by exact I. rewrite vadd_nth by lia. lra.
      + apply nth_overflow. rewrite vadd_length, La, Lb. exact I.
    - intros Z. eexists _, _. split; [exact E|]. split; [exact E'|]. rewrite D2. intros i I. rewrite !four_list_nth, Nf by exact I.
      specialize (Z i). rewrite vadd_nth in Z by lia. lra. }
  rewrite St. rewrite <- (amplitudes_vanish right_waves left_waves (vadd a b) waves_inverse) by (rewrite vadd_length, La, Lb; reflexivity).
  split; intros H k K; specialize (H k K).
  - rewrite amplitude_vadd in H by lia. unfold a, b in H. rewrite !wave_amplitude in H by (trivial; apply waves_inverse). exact H.
  - rewrite amplitude_vadd by lia. unfold a, b. rewrite !wave_amplitude by (trivial; apply waves_inverse). exact H.
Qed.

Lemma there_upwind k : s_riemann s = Upwind -> (k < 4)%nat -> there k = Rmax (- wave_speed nspeed sound k) 0.
Proof. intros R K. unfold there. rewrite R. four k K; cbn [mirror dissipation wave_speed]; f_equal; ring. Qed.

Lemma there_roe k : s_riemann s = Roe -> (k < 4)%nat -> there k = Rabs (wave_speed nspeed sound k).
Proof. intros R K. unfold there. rewrite R. rewrite <- (Rabs_Ropp (wave_speed nspeed sound k)). four k K; cbn [mirror dissipation wave_speed]; f_equal; ring. Qed.

Lemma mean_amplitudes a b U U' : 0 < a + b -> length U = 4%nat -> length U' = 4%nat ->
  (mean_of 2 a b U U' facet_state <-> forall k, (k < 4)%nat -> a * amplitude left_waves (vsub U facet_state) k + b * amplitude left_waves (vsub U' facet_state) k = 0).
Proof.
  intros P LU LU'. pose proof facet_state_length as LH.
  set (w := vadd (vscale a (vsub U facet_state)) (vscale b (vsub U' facet_state))).
  assert (L1 : length (vsub U facet_state) = 4%nat) by (rewrite vsub_length, LU, LH; reflexivity). assert (L2 : length (vsub U' facet_state) = 4%nat) by (rewrite vsub_length, LU', LH; reflexivity).
  assert (Lw : length w = 4%nat) by (unfold w, vscale; rewrite vadd_length, !map_length, L1, L2; reflexivity).
  assert (Sc : forall x v k, (k < length v)%nat -> nth k (vscale x v) 0 = x * nth k v 0).
  { intros x v. unfold vscale. induction v as [|y v IH]; intros [|k] K; cbn in *; try lia; [reflexivity|]. apply IH. lia. }
  assert (Am : forall x v k, length v = 4%nat -> (k < 4)%nat -> amplitude left_waves (vscale x v) k = x * amplitude left_waves v k).
  { intros x v k Lv K. unfold amplitude. rewrite <- total_scale. apply total_ext. intros j J. rewrite Sc by lia. ring. }
  transitivity (vanishes w).
  - split.
    + intros M i. destruct (Nat.lt_ge_cases i 4) as [I|I]; [|apply nth_overflow; lia]. unfold w. rewrite vadd_nth by (unfold vscale; rewrite !map_length; lia).
      rewrite !Sc, !vsub_nth by lia. apply weights_sides; [exact P|]. apply (M i). exact I.
    + intros Z i I. apply weights_sides; [exact P|]. specialize (Z i). unfold w in Z. rewrite vadd_nth in Z by (unfold vscale; rewrite !map_length; lia).
      rewrite !Sc, !vsub_nth in Z by lia. exact Z.
  - rewrite <- (amplitudes_vanish right_waves left_waves w waves_inverse Lw). split; intros H k K; specialize (H k K).
    + unfold w in H. rewrite amplitude_vadd in H by (unfold vscale; rewrite !map_length; lia). rewrite !Am in H by lia. exact H.
    + unfold w. rewrite amplitude_vadd by (unfold vscale; rewrite !map_length; lia). rewrite !Am by lia. exact H.
Qed.

End Plane.

Lemma two_entries : forall v : list R, length v = 2%nat -> exists x y, v = [x; y].
Proof. intros [|x [|y [|z l]]] L; try discriminate L. exists x, y. reflexivity. Qed.

(** Upwind: the facet takes the waves that leave an element from that element; a wave that does not move is not determined. *)
Theorem c80_upwind : forall s st U U' n n0 n1, 1 < s_gamma s -> valid st -> s_dim s = 2%nat -> length (st_u st) = 2%nat -> unit2 n n0 n1 ->
  length U = 4%nat -> length U' = 4%nat -> s_riemann s = Upwind ->
  let un := inner (st_u st) n in let c := q_c (s_gamma s) st in let Uhat := conservative_list (s_gamma s) st in
  exists Q, characteristic_from_conservative s (full_fields s st) n = Ok Q /\
    (balanced s U U' st n <-> forall k, (k < 4)%nat ->
      (0 < wave_speed un c k -> amplitude Q (vsub U Uhat) k = 0) /\ (wave_speed un c k < 0 -> amplitude Q (vsub U' Uhat) k = 0)).
Proof.
  intros s st U U' n n0 n1 G V D2 Lu N LU LU' R un c Uhat. destruct (two_entries _ Lu) as (ux & uy & Eu).
  exists (left_waves s st ux uy n0 n1). split; [apply (state_matrices s st ux uy n0 n1 n G V Eu N)|].
  rewrite (balanced_waves s st ux uy n0 n1 n G V Eu D2 N U U' LU LU'). split; intros H k K; specialize (H k K).
  - rewrite (there_upwind s st n k R K) in H. unfold here in H. rewrite R in H. cbn [dissipation] in H. unfold nspeed, sound, facet_state in H. fold un c Uhat in H.
    split; intros L.
    + rewrite (Rmax_left (wave_speed un c k)), (Rmax_right (- wave_speed un c k)) in H by lra. rewrite Rmult_0_l, Rplus_0_r in H. apply Rmult_integral in H. destruct H as [H|H]; [lra|exact H].
    + rewrite (Rmax_right (wave_speed un c k)), (Rmax_left (- wave_speed un c k)) in H by lra. rewrite Rmult_0_l, Rplus_0_l in H. apply Rmult_integral in H. destruct H as [H|H]; [lra|exact H].
  - rewrite (there_upwind s st n k R K). unfold here. rewrite R. cbn [dissipation]. unfold nspeed, sound, facet_state. fold un c Uhat. destruct H as [H1 H2].
    destruct (Rtotal_order (wave_speed un c k) 0) as [L|[L|L]].
    + rewrite (Rmax_right (wave_speed un c k)) by lra. rewrite (H2 L). ring.
    + rewrite L, Ropp_0, Rmax_left by lra. ring.
    + rewrite (Rmax_right (- wave_speed un c k)) by lra. rewrite (H1 L). ring.
Qed.
Print Assumptions c80_upwind.

(** Roe: the facet takes the mean of all moving waves. *)
Theorem c80_roe : forall s st U U' n n0 n1, 1 < s_gamma s -> valid st -> s_dim s = 2%nat -> length (st_u st) = 2%nat -> unit2 n n0 n1 ->
  length U = 4%nat -> length U' = 4%nat -> s_riemann s = Roe ->
  let un := inner (st_u st) n in let c := q_c (s_gamma s) st in let Uhat := conservative_list (s_gamma s) st in
  exists Q, characteristic_from_conservative s (full_fields s st) n = Ok Q /\
    (balanced s U U' st n <-> forall k, (k < 4)%nat -> wave_speed un c k <> 0 -> amplitude Q (vsub U Uhat) k + amplitude Q (vsub U' Uhat) k = 0) /\
    (mean_of 2 1 1 U U' Uhat -> balanced s U U' st n) /\
    (un <> 0 -> un <> c -> un <> - c -> balanced s U U' st n -> mean_of 2 1 1 U U' Uhat).
Proof.
  intros s st U U' n n0 n1 G V D2 Lu N LU LU' R un c Uhat. destruct (two_entries _ Lu) as (ux & uy & Eu).
  exists (left_waves s st ux uy n0 n1). split; [apply (state_matrices s st ux uy n0 n1 n G V Eu N)|].
  assert (B : balanced s U U' st n <-> forall k, (k < 4)%nat -> wave_speed un c k <> 0 -> amplitude (left_waves s st ux uy n0 n1) (vsub U Uhat) k + amplitude (left_waves s st ux uy n0 n1) (vsub U' Uhat) k = 0).
  { rewrite (balanced_waves s st ux uy n0 n1 n G V Eu D2 N U U' LU LU'). split; intros H k K; specialize (H k K).
    - intros L. rewrite (there_roe s st n k R K) in H. unfold here in H. rewrite R in H. cbn [dissipation] in H. unfold nspeed, sound, facet_state in H. fold un c Uhat in H.
      rewrite <- Rmult_plus_distr_l in H. apply Rmult_integral in H. destruct H as [H|H]; [|exact H]. apply Rabs_no_R0 in L. contradiction.
    - rewrite (there_roe s st n k R K). unfold here. rewrite R. cbn [dissipation]. unfold nspeed, sound, facet_state. fold un c Uhat.
      destruct (Req_dec (wave_speed un c k) 0) as [L|L]; [rewrite L, Rabs_R0; ring|]. rewrite <- Rmult_plus_distr_l, (H L). ring. }
  split; [exact B|]. pose proof (mean_amplitudes s st ux uy n0 n1 n G V Eu D2 N 1 1 U U' ltac:(lra) LU LU') as M. unfold facet_state in M. fold Uhat in M. split.
  - intros H. apply B. intros k K _. pose proof (proj1 M H k K). lra.
  - intros N1 N2 N3 H. apply M. intros k K. pose proof (proj1 B H k K) as X.
    assert (L : wave_speed un c k <> 0) by (four k K; cbn [wave_speed]; lra). specialize (X L). lra.
Qed.
Print Assumptions c80_roe.

(** HLLEM: the same mean as with HLL, as long as its threshold is positive or the flow crosses the facet. *)
Theorem c80_hllem : forall s st U U' n n0 n1 theta_0, 1 < s_gamma s -> valid st -> s_dim s = 2%nat -> length (st_u st) = 2%nat -> unit2 n n0 n1 ->
  length U = 4%nat -> length U' = 4%nat -> s_riemann s = HLLEM theta_0 ->
  let un := inner (st_u st) n in let c := q_c (s_gamma s) st in let Uhat := conservative_list (s_gamma s) st in
  (mean_of 2 (leaving un c) (entering un c) U U' Uhat -> balanced s U U' st n) /\
  (0 < theta_0 \/ un <> 0 -> balanced s U U' st n -> mean_of 2 (leaving un c) (entering un c) U U' Uhat).
Proof.
  intros s st U U' n n0 n1 t G V D2 Lu N LU LU' R un c Uhat. destruct (two_entries _ Lu) as (ux & uy & Eu). pose proof (q_c_pos _ _ G V) as C0. fold c in C0.
  destruct (sides_positive un c C0) as (A0 & B0 & AB).
  pose proof (mean_amplitudes s st ux uy n0 n1 n G V Eu D2 N (leaving un c) (entering un c) U U' AB LU LU') as M. unfold facet_state in M. fold Uhat in M.
  set (th := fun k : nat => match k with 1%nat | 2%nat => Rmax (Rabs un / (Rabs un + c)) t | _ => 1 end).
  assert (E : forall k x y, (k < 4)%nat -> here s st n k * x + there s st n k * y = th k * (leaving un c * x + entering un c * y)).
  { intros k x y K. unfold here, there, nspeed, sound. fold un c. rewrite R. unfold leaving, entering. replace (c - un) with (- un + c) by ring.
    four k K; cbn [mirror dissipation th]; rewrite ?Rabs_Ropp; ring. }
  rewrite M. rewrite (balanced_waves s st ux uy n0 n1 n G V Eu D2 N U U' LU LU'). unfold facet_state. fold Uhat. split.
  - intros H k K. rewrite E, (H k K) by exact K. ring.
  - intros T H k K. specialize (H k K). rewrite E in H by exact K. apply Rmult_integral in H. destruct H as [H|H]; [exfalso|exact H].
    assert (P : 0 < th k); [|lra]. pose proof (Rabs_pos un) as Au.
    assert (0 < Rmax (Rabs un / (Rabs un + c)) t).
    { destruct T as [T|T]; [eapply Rlt_le_trans; [exact T|apply Rmax_r]|]. eapply Rlt_le_trans; [|apply Rmax_l]. apply Rdiv_lt_0_compat; [apply Rabs_pos_lt, T|lra]. }
    four k K; cbn [th]; lra.
Qed.
Print Assumptions c80_hllem.

(** Where the flow crosses the facet faster than sound its state is the one upstream, except with Lax-Friedrichs and Roe. *)
Theorem c80_supersonic : forall s st U U' n n0 n1, 1 < s_gamma s -> valid st -> s_dim s = 2%nat -> length (st_u st) = 2%nat -> unit2 n n0 n1 ->
  length U = 4%nat -> length U' = 4%nat -> s_riemann s <> LaxFriedrich -> s_riemann s <> Roe ->
  let un := inner (st_u st) n in let c := q_c (s_gamma s) st in let Uhat := conservative_list (s_gamma s) st in
  balanced s U U' st n -> (c < un -> Uhat = U) /\ (un < - c -> Uhat = U').
Proof.
  intros s st U U' n n0 n1 G V D2 Lu N LU LU' NL NR un c Uhat B. pose proof (q_c_pos _ _ G V) as C0. fold c in C0.
  assert (Ln : length n = 2%nat) by (destruct N as [-> _]; reflexivity).
  assert (LH : length Uhat = 4%nat) by (unfold Uhat; rewrite conservative_list_length, Lu; reflexivity).
  assert (Mn : mean_of 2 (leaving un c) (entering un c) U U' Uhat -> (c < un -> Uhat = U) /\ (un < - c -> Uhat = U')).
  { intros M. split; intros L; apply (nth_ext _ _ 0 0); try congruence; rewrite LH; intros i I; rewrite (M i I); unfold leaving, entering.
    - rewrite (Rmax_left (un + c)), (Rmax_right (c - un)) by lra. field. lra.
    - rewrite (Rmax_right (un + c)), (Rmax_left (c - un)) by lra. field. lra. }
  destruct (s_riemann s) as [| | | |t] eqn:R; try congruence.
  - destruct (c80_upwind s st U U' n n0 n1 G V D2 Lu N LU LU' R) as (Q & EQ & H). destruct (proj1 H B 0%nat) as [_ _]; [lia|].
    assert (Inv : exists P, inverse 4 P Q).
    { destruct (two_entries _ Lu) as (ux & uy & Eu). destruct (state_matrices s st ux uy n0 n1 n G V Eu N) as (I & _ & E). rewrite E in EQ. apply ok_inj in EQ. rewrite <- EQ. eexists. exact I. }
    destruct Inv as (P & Inv). fold un c Uhat in H.
    assert (Am : forall X, length X = 4%nat -> (forall k, (k < 4)%nat -> amplitude Q (vsub X Uhat) k = 0) -> Uhat = X).
    { intros X LX Z. apply (same_amplitudes P Q Uhat X Inv LH LX). intros k K. specialize (Z k K). rewrite amplitude_vsub in Z by congruence. lra. }
    split; intros L; apply Am; trivial; intros k K; pose proof (proj1 H B k K) as [H1 H2]; [apply H1|apply H2]; four k K; cbn [wave_speed]; lra.
  - apply Mn. pose proof (proj2 (c80_scalar s st U U' n G V ltac:(congruence) ltac:(congruence) ltac:(rewrite D2; exact LU) ltac:(rewrite D2; exact LU')) R) as X.
    rewrite D2 in X. apply X, B.
  - pose proof (proj2 (c80_hllem s st U U' n n0 n1 t G V D2 Lu N LU LU' R)) as X. fold un c Uhat in X.
    split; intros L; apply Mn; trivial; apply X; trivial; right; intros Z; lra.
Qed.
Print Assumptions c80_supersonic.

(** ** A contact *)

(** The solvers that leave alone what does not move. *)
Definition silent (r : riemann) : Prop := match r with Upwind | Roe => True | HLLEM theta_0 => theta_0 <= 0 | _ => False end.

Lemma silent_waves r c : silent r -> 0 < c -> dissipation r 0 c 1 = 0.
Proof.
  intros S0 C. destruct r as [| | | |t]; cbn in S0 |- *; try contradiction.
  - apply Rmax_left. lra.
  - apply Rabs_R0.
  - rewrite Rabs_R0. replace (0 / (0 + c)) with 0 by (field; lra). rewrite (Rmax_left 0 t) by exact S0. ring.
Qed.

(** Another density on the facet does not change the flux. *)
Lemma contact_flux s st n n0 n1 r : 1 < s_gamma s -> valid st -> s_dim s = 2%nat -> length (st_u st) = 2%nat -> unit2 n n0 n1 ->
  inner (st_u st) n = 0 -> silent (s_riemann s) -> 0 < r ->
  get_convective_numerical_flux s (conservative_list (s_gamma s) st) (conservative_list (s_gamma s) (with_density r st)) n = Ok (four_list (normal_flux (s_gamma s) st n)).
Proof.
  intros G V D2 Lu N Z Si R0. destruct (two_entries _ Lu) as (ux & uy & Eu). set (st' := with_density r st).
  assert (V' : valid st') by (split; [exact R0|apply V]). assert (Eu' : st_u st' = [ux; uy]) by exact Eu.
  rewrite (flux_value s st' ux uy n0 n1 n G V' Eu' D2 N). f_equal.
  assert (Zn : ux * n0 + uy * n1 = 0) by (rewrite Eu in Z; destruct N as [-> _]; cbn in Z; lra). rewrite Zn.
  pose proof (q_c_pos _ _ G V') as C0. set (c := q_c (s_gamma s) st') in *.
  set (D := vsub (conservative_list (s_gamma s) st) (conservative_list (s_gamma s) st')).
  assert (ED : D = [st_rho st - r; (st_rho st - r) * ux; (st_rho st - r) * uy; (st_rho st - r) * (ux * ux + uy * uy) / 2]).
  { unfold D, conservative_list, q_rho_u, q_rho_E, q_E, q_Ei, q_Ek, q_rho_Ei. rewrite Eu', Eu. cbn. destruct V, V'. repeat (apply f_equal2; [first [ring | field; lra]|]). reflexivity. }
  assert (Vn : vanishes (mvmul (wave (PP (s_gamma s) (st_rho st') ux uy c n0 n1) (QQ (s_gamma s) (st_rho st') ux uy c n0 n1) (dissipation (s_riemann s) 0 c)) D)).
  { pose proof (waves_inverse s st' ux uy n0 n1 n G V' Eu' N) as Inv. unfold right_waves, left_waves in Inv. fold c in Inv.
    apply (amplitudes_vanish _ _ _ Inv); [rewrite mvmul_length; reflexivity|]. intros k K. rewrite wave_amplitude by assumption.
    four k K.
    - replace (amplitude _ D 0) with 0; [ring|]. rewrite ED. unfold amplitude. cbn. change (st_rho st') with r.
      replace 0 with (c * (st_rho st - r) * 0) by ring. field.
    - rewrite silent_waves by assumption. ring.
    - replace (amplitude _ D 2) with 0; [ring|]. rewrite ED. unfold amplitude. cbn. field. lra.
    - replace (amplitude _ D 3) with 0; [ring|]. rewrite ED. unfold amplitude. cbn. field. }
  unfold four_list. rewrite !Vn.
  assert (Nf : forall i, (i < 4)%nat -> normal_flux (s_gamma s) st' n i + 0 = normal_flux (s_gamma s) st n i).
  { intros i I. unfold normal_flux. rewrite Eu', Eu. destruct N as [-> _]. unfold euler_flux. rewrite Eu', Eu. cbn [length total nth]. change (st_p st') with (st_p st).
    assert (Zr : forall a x, a = x * (ux * n0 + uy * n1) -> a = 0) by (intros a x ->; rewrite Zn; ring).
    four i I; cbn [Nat.eqb Nat.leb Nat.sub nth delta]; apply Rminus_diag_uniq.
    - apply (Zr _ (st_rho st' - st_rho st)). ring.
    - apply (Zr _ ((st_rho st' - st_rho st) * ux)). ring.
    - apply (Zr _ ((st_rho st' - st_rho st) * uy)). ring.
    - apply (Zr _ (q_rho_E (s_gamma s) st' - q_rho_E (s_gamma s) st)). ring. }
  rewrite !Nf by lia. reflexivity.
Qed.

(** Upwind, Roe and HLLEM without a positive threshold do not determine the state on a facet that the flow does not cross: if both
    elements have the same state, the facet may have any density. *)
Theorem c80_contact_refuted : forall s st n n0 n1 r, 1 < s_gamma s -> valid st -> s_dim s = 2%nat -> length (st_u st) = 2%nat -> unit2 n n0 n1 ->
  inner (st_u st) n = 0 -> s_riemann s = Upwind \/ s_riemann s = Roe \/ (exists theta_0, s_riemann s = HLLEM theta_0 /\ theta_0 <= 0) -> 0 < r ->
  let U := conservative_list (s_gamma s) st in valid (with_density r st) /\ balanced s U U (with_density r st) n.
Proof.
  intros s st n n0 n1 r G V D2 Lu N Z Si R0 U.
  assert (Si' : silent (s_riemann s)) by (destruct Si as [-> | [-> | (t & -> & T)]]; cbn; trivial).
  split; [split; [exact R0|apply V]|]. eexists _, _. split; [exact (contact_flux s st n n0 n1 r G V D2 Lu N Z Si' R0)|].
  assert (N' : unit2 (map Ropp n) (- n0) (- n1)) by (destruct N as [-> E]; split; [reflexivity|lra]).
  split; [apply (contact_flux s st (map Ropp n) (- n0) (- n1) r G V D2 Lu N'); trivial; rewrite inner_opposite, Z; ring|].
  rewrite D2. intros i I. rewrite !four_list_nth by exact I. unfold normal_flux. rewrite Lu. destruct N as [-> _]. cbn [map total nth]. ring.
Qed.
Print Assumptions c80_contact_refuted.

(** The other solvers determine it: between equal neighbours the facet has their state, whatever the normal. *)
Theorem c80_unique : forall s st U n, 1 < s_gamma s -> valid st -> length (st_u st) = s_dim s -> length n = s_dim s -> length U = (s_dim s + 2)%nat ->
  s_riemann s = LaxFriedrich \/ s_riemann s = HLL \/ (exists theta_0 n0 n1, s_riemann s = HLLEM theta_0 /\ 0 < theta_0 /\ s_dim s = 2%nat /\ unit2 n n0 n1) ->
  balanced s U U st n -> conservative_list (s_gamma s) st = U.
Proof.
  intros s st U n G V Lu Ln LU R B. pose proof (q_c_pos _ _ G V) as C0. set (un := inner (st_u st) n). set (c := q_c (s_gamma s) st) in *. destruct (sides_positive un c C0) as (_ & _ & P).
  assert (M : forall a b, 0 < a + b -> mean_of (s_dim s) a b U U (conservative_list (s_gamma s) st) -> conservative_list (s_gamma s) st = U).
  { intros a b Pab M. apply (nth_ext _ _ 0 0); [rewrite conservative_list_length; lia|]. intros i I. rewrite conservative_list_length, Lu in I. rewrite (M i ltac:(lia)). field. lra. }
  destruct R as [R | [R | (t & n0 & n1 & R & T & D2 & N)]].
  - apply (M 1 1); [lra|]. exact (proj1 (proj1 (c80_scalar s st U U n G V Lu Ln LU LU) R) B).
  - apply (M (leaving un c) (entering un c) P). exact (proj1 (proj2 (c80_scalar s st U U n G V Lu Ln LU LU) R) B).
  - apply (M (leaving un c) (entering un c) P). rewrite D2 in *. exact (proj2 (c80_hllem s st U U n n0 n1 t G V D2 Lu N LU LU R) (or_introl T) B).
Qed.
Print Assumptions c80_unique.

Lemma integral_same q f h : (forall w x, In (w, x) q -> f x = h x) -> integral q f = integral q h.
Proof. induction q as [|[w x] q IH]; intros E; cbn [integral]; [reflexivity|]. rewrite (E w x) by now left. rewrite IH; [reflexivity|]. intros w' x' I. apply (E w' x'). now right. Qed.

Lemma rest_diffusion s st Q n r mu re pr : 1 < s_gamma s -> valid st -> s_dim s = 2%nat -> st_u st = [0; 0] -> length n = 2%nat -> 0 < r ->
  viscosity s (full_fields s (with_density r st)) = Ok mu -> reference_reynolds_number s = Ok re -> prandtl_number s = Ok pr ->
  (exists eps dT, viscous_gradients s eps dT Q /\ zero_matrix (s_dim s) eps /\ forall j, nth j dT 0 = 0) ->
  get_diffusive_numerical_flux s (conservative_list (s_gamma s) st) (conservative_list (s_gamma s) (with_density r st)) Q n = Ok [0; 0; 0; 0].
Proof.
  intros G V D2 Eu Ln R0 Em Er Ep (eps & dT & Vg & Z1 & Z2). set (st' := with_density r st) in *.
  assert (V' : valid st') by (split; [exact R0|apply V]). assert (Dim : length (st_u st') = s_dim s) by (cbn; rewrite Eu, D2; reflexivity).
  assert (Dt : determined velocity_sources (full_fields s st')) by (exists [Uu]; split; [left; reflexivity|]; intros f [<-|[]]; reflexivity).
  destruct (c51_flux s st' (full_fields s st') Q eps dT mu re pr G V' (full_describes s st') Dt Dim Vg Em Er Ep) as (GG & EG & RG & CG & _ & _).
  pose proof (c51_uniform s st' _ Q eps dT mu re pr GG G V' (full_describes s st') Dt Dim Vg Z1 Z2 Em Er Ep EG) as Zg.
  destruct (stabilisation_entries s (full_fields s st') mu re pr Em Er Ep) as (tau & Et & Rt & Ct & Ht).
  unfold get_diffusive_numerical_flux. rewrite (fields_ok s st' G V' Dim). cbn [bind]. rewrite Et, EG. cbn [bind]. f_equal.
  set (D := vsub (conservative_list (s_gamma s) st) (conservative_list (s_gamma s) st')).
  assert (ED : D = [st_rho st - r; 0; 0; 0]).
  { unfold D, conservative_list, q_rho_u, q_rho_E, q_E, q_Ei, q_Ek, q_rho_Ei. change (st_u st') with (st_u st). rewrite Eu. cbn. destruct V, V'. repeat (apply f_equal2; [first [ring | field; lra]|]). reflexivity. }
  rewrite D2 in *. cbn [Nat.add] in *.
  apply (nth_ext _ _ 0 0); [rewrite vsub_length, !mvmul_length, RG, Rt; reflexivity|]. intros i I. rewrite vsub_length, !mvmul_length, RG, Rt in I. cbn [Nat.min] in I.
  rewrite vsub_nth by (rewrite !mvmul_length, RG, Rt; reflexivity). rewrite !mvmul_total by lia. rewrite CG, Ct.
  rewrite (total_ext (fun j => entry GG i j * nth j n 0) (fun _ => 0)) by (intros j J; rewrite Zg by lia; ring). rewrite total_zero.
  rewrite (total_ext (fun j => entry tau i j * nth j D 0) (fun _ => 0)).
  - rewrite total_zero. four i I; cbn [nth]; ring.
  - intros j J. rewrite Ht by lia. rewrite ED. four j J; cbn [nth]; try ring. unfold delta. four i I; cbn [Nat.eqb]; ring.
Qed.

(** So the whole problem does not determine it: with these solvers, and with elements that have the state of a flow along the
    facets, the facets may have any density without changing the residual for any test function.  (The vectors of the boundary
    conditions are given; so the facets with another density are those between elements.)  The same holds for a viscous
    fluid at rest and without gradients. *)
Theorem c80_free_density_refuted : forall s m r bs ls sc u t st rho, 1 < s_gamma s -> s_dim s = 2%nat ->
  s_riemann s = Upwind \/ s_riemann s = Roe \/ (exists theta_0, s_riemann s = HLLEM theta_0 /\ theta_0 <= 0) ->
  (forall w y, In (w, y) (r_cbnd r) \/ In (w, y) (r_dbnd r) -> (exists n0 n1, unit2 (normal m y) n0 n1) /\ valid (st y) /\ length (st_u (st y)) = 2%nat /\
     inner (st_u (st y)) (normal m y) = 0 /\ uU u y = conservative_list (s_gamma s) (st y) /\ 0 < rho y) ->
  (s_law s = Inviscid \/
   (exists re pr, reference_reynolds_number s = Ok re /\ prandtl_number s = Ok pr) /\
   forall w y, In (w, y) (r_dbnd r) -> st_u (st y) = [0; 0] /\ (forall q, 0 < q -> exists mu, viscosity s (full_fields s (with_density q (st y))) = Ok mu) /\
     exists eps dT, viscous_gradients s eps dT (uQ u y) /\ zero_matrix (s_dim s) eps /\ forall j, nth j dT 0 = 0) ->
  weak_form s m r bs ls sc (with_facets (fun y => conservative_list (s_gamma s) (with_density (rho y) (st y))) u) t =
  weak_form s m r bs ls sc (with_facets (fun y => conservative_list (s_gamma s) (st y)) u) t.
Proof.
  intros s m r bs ls sc u t st rho G D2 Si Hc Hd.
  assert (Si' : silent (s_riemann s)) by (destruct Si as [-> | [-> | (x & -> & T)]]; cbn; trivial).
  set (v := with_facets (fun y => conservative_list (s_gamma s) (with_density (rho y) (st y))) u). set (v' := with_facets (fun y => conservative_list (s_gamma s) (st y)) u).
  assert (Own : forall st0, with_density (st_rho st0) st0 = st0) by (intros []; reflexivity).
  assert (Cn : forall w y, In (w, y) (r_cbnd r) -> convection_Fn s m v y = convection_Fn s m v' y).
  { intros w y I. destruct (Hc w y (or_introl I)) as ((n0 & n1 & N) & V & Lu & Z & EU & R0). unfold convection_Fn, v, v', with_facets. cbn [uU uUhat]. rewrite EU.
    rewrite (contact_flux s (st y) (normal m y) n0 n1 (rho y)) by assumption.
    pose proof (contact_flux s (st y) (normal m y) n0 n1 (st_rho (st y)) G V D2 Lu N Z Si' (proj1 V)) as E. rewrite Own in E. rewrite E. reflexivity. }
  assert (Dn : s_law s <> Inviscid -> forall w y, In (w, y) (r_dbnd r) -> diffusion_Gn s m v y = diffusion_Gn s m v' y).
  { intros NI w y I. destruct Hd as [Hd | ((re & pr & Er & Ep) & Hd)]; [contradiction|]. destruct (Hd w y I) as (Eu & Vi & Gr). destruct (Hc w y (or_intror I)) as ((n0 & n1 & N) & V & Lu & _ & EU & R0).
    assert (Ln : length (normal m y) = 2%nat) by (destruct N as [-> _]; reflexivity).
    unfold diffusion_Gn, v, v', with_facets. cbn [uU uUhat uQ]. rewrite EU. destruct (Vi _ R0) as (mu & Em). destruct (Vi _ (proj1 V)) as (mu' & Em').
    rewrite (rest_diffusion s (st y) (uQ u y) (normal m y) (rho y) mu re pr) by assumption.
    pose proof (rest_diffusion s (st y) (uQ u y) (normal m y) (st_rho (st y)) mu' re pr G V D2 Eu Ln (proj1 V) Em' Er Ep Gr) as E. rewrite Own in E. rewrite E. reflexivity. }
  assert (Ec : convection_form s m (r_cvol r) (r_cbnd r) v t = convection_form s m (r_cvol r) (r_cbnd r) v' t).
  { unfold convection_form. change (fun x => let* F := convection_F s v x in Ok (- inner (entries F) (entries (tdV t x)))) with (fun x => let* F := convection_F s v' x in Ok (- inner (entries F) (entries (tdV t x)))).
    rewrite (integral_same (r_cbnd r) (fun y => let* Fn := convection_Fn s m v y in Ok (inner Fn (tV t y))) (fun y => let* Fn := convection_Fn s m v' y in Ok (inner Fn (tV t y)))) by (intros w y I; rewrite (Cn w y I); reflexivity).
    rewrite (integral_same (r_cbnd r) (fun y => let* Fn := convection_Fn s m v y in Ok (- mask m y * inner Fn (tVhat t y))) (fun y => let* Fn := convection_Fn s m v' y in Ok (- mask m y * inner Fn (tVhat t y)))) by (intros w y I; rewrite (Cn w y I); reflexivity).
    reflexivity. }
  assert (Ed : s_law s <> Inviscid -> diffusion_form s m (r_dvol r) (r_dbnd r) v t = diffusion_form s m (r_dvol r) (r_dbnd r) v' t).
  { intros NI. specialize (Dn NI). unfold diffusion_form. change (fun x => let* G0 := diffusion_G s v x in Ok (inner (entries G0) (entries (tdV t x)))) with (fun x => let* G0 := diffusion_G s v' x in Ok (inner (entries G0) (entries (tdV t x)))).
    rewrite (integral_same (r_dbnd r) (fun y => let* Gn := diffusion_Gn s m v y in Ok (inner Gn (tV t y))) (fun y => let* Gn := diffusion_Gn s m v' y in Ok (inner Gn (tV t y)))) by (intros w y I; rewrite (Dn w y I); reflexivity).
    rewrite (integral_same (r_dbnd r) (fun y => let* Gn := diffusion_Gn s m v y in Ok (mask m y * inner Gn (tVhat t y))) (fun y => let* Gn := diffusion_Gn s m v' y in Ok (mask m y * inner Gn (tVhat t y)))) by (intros w y I; rewrite (Dn w y I); reflexivity).
    reflexivity. }
  unfold weak_form. rewrite Ec.
  assert (El : match s_law s with Inviscid => Ok 0 | _ => diffusion_form s m (r_dvol r) (r_dbnd r) v t end = match s_law s with Inviscid => Ok 0 | _ => diffusion_form s m (r_dvol r) (r_dbnd r) v' t end).
  { destruct (s_law s) eqn:L; try reflexivity; apply Ed; discriminate. }
  rewrite El.
  assert (Es : forall l, domain_form s l v t = domain_form s l v' t) by (induction l as [|a l IH]; cbn [domain_form]; [reflexivity|]; rewrite IH; reflexivity).
  rewrite Es. reflexivity.
Qed.
Print Assumptions c80_free_density_refuted.

(** ** Existence *)

Lemma keep_plus f h t : continuity_pt f t -> continuity_pt h t -> continuity_pt (fun x => f x + h x) t.
Proof. exact (continuity_pt_plus f h t). Qed.
Lemma keep_minus f h t : continuity_pt f t -> continuity_pt h t -> continuity_pt (fun x => f x - h x) t.
Proof. exact (continuity_pt_minus f h t). Qed.
Lemma keep_mult f h t : continuity_pt f t -> continuity_pt h t -> continuity_pt (fun x => f x * h x) t.
Proof. exact (continuity_pt_mult f h t). Qed.
Lemma keep_div f h t : continuity_pt f t -> continuity_pt h t -> h t <> 0 -> continuity_pt (fun x => f x / h x) t.
Proof. exact (continuity_pt_div f h t). Qed.
Lemma keep_const a t : continuity_pt (fun _ => a) t.
Proof. apply continuity_pt_const. intros x y. reflexivity. Qed.
Lemma keep_id t : continuity_pt (fun x => x) t.
Proof. exact (derivable_continuous_pt id t (derivable_pt_id t)). Qed.
Lemma keep_total d f t : (forall j, (j < d)%nat -> continuity_pt (fun x => f x j) t) -> continuity_pt (fun x => total d (f x)) t.
Proof.
  induction d as [|d IH]; intros H; cbn [total]; [apply keep_const|]. apply (keep_plus (fun x => total d (f x)) (fun x => f x d)); [apply IH; intros j J; apply H; lia|apply H; lia].
Qed.
Lemma keep_max f t : continuity_pt f t -> continuity_pt (fun x => (f x + Rabs (f x)) / 2) t.
Proof.
  intros C. apply (keep_div (fun x => f x + Rabs (f x)) (fun _ => 2)); [|apply keep_const|lra]. apply (keep_plus f (fun x => Rabs (f x))); [exact C|].
  exact (continuity_pt_comp f Rabs t C (Rcontinuity_abs (f t))).
Qed.
Lemma max_abs x : Rmax x 0 = (x + Rabs x) / 2.
Proof. unfold Rmax. destruct (Rle_dec x 0); [rewrite Rabs_left1 by assumption|rewrite Rabs_right by lra]; field. Qed.

(** Normal velocity and speed of sound as functions of the unknowns. *)
Definition unknown_speed (d : nat) (n W : list R) : R := total d (fun j => nth (j + 1) W 0 * nth j n 0) / nth 0 W 0.
Definition unknown_sound (g : R) (d : nat) (W : list R) : R :=
  sqrt (g * (g - 1) * (nth (d + 1) W 0 - total d (fun j => nth (j + 1) W 0 ^ 2) / (2 * nth 0 W 0)) / nth 0 W 0).

Lemma unknown_parts g st n d : 1 < g -> valid st -> length (st_u st) = d -> length n = d ->
  unknown_speed d n (conservative_list g st) = inner (st_u st) n /\ unknown_sound g d (conservative_list g st) = q_c g st.
Proof.
  intros G [R0 P0] Lu Ln. unfold unknown_speed, unknown_sound.
  assert (M : forall j, (j < d)%nat -> nth (j + 1) (conservative_list g st) 0 = st_rho st * nth j (st_u st) 0).
  { intros j J. unfold conservative_list. replace (j + 1)%nat with (S j) by lia. cbn [nth]. rewrite app_nth1 by (unfold q_rho_u; rewrite map_length; lia).
    unfold q_rho_u. rewrite (nth_indep _ 0 (st_rho st * 0)) by (rewrite map_length; lia). rewrite (map_nth (fun a => st_rho st * a)). reflexivity. }
  assert (E : nth (d + 1) (conservative_list g st) 0 = q_rho_E g st).
  { unfold conservative_list. replace (d + 1)%nat with (S d) by lia. cbn [nth]. rewrite app_nth2 by (unfold q_rho_u; rewrite map_length; lia).
    replace (d - length (q_rho_u st))%nat with 0%nat by (unfold q_rho_u; rewrite map_length; lia). reflexivity. }
  change (nth 0 (conservative_list g st) 0) with (st_rho st). rewrite E. split.
  - rewrite (total_ext _ (fun j => st_rho st * (nth j (st_u st) 0 * nth j n 0))) by (intros j J; rewrite M by exact J; ring).
    rewrite total_scale, inner_total by congruence. rewrite Lu. field. lra.
  - unfold q_c. f_equal. rewrite (total_ext _ (fun j => st_rho st * st_rho st * (nth j (st_u st) 0 * nth j (st_u st) 0))) by (intros j J; rewrite M by exact J; ring).
    rewrite total_scale. unfold q_rho_E, q_E, q_Ei, q_Ek, q_rho_Ei. rewrite inner_total by reflexivity. rewrite Lu. field. lra.
Qed.

(** The points between two vectors. *)
Definition between (U U' : list R) (t : R) : list R := vadd (vscale t U) (vscale (1 - t) U').

Lemma between_nth U U' t k : length U = length U' -> nth k (between U U' t) 0 = t * nth k U 0 + (1 - t) * nth k U' 0.
Proof. intros L. unfold between. rewrite vadd_nth by (rewrite !vscale_length; exact L). rewrite !vscale_nth. reflexivity. Qed.

Lemma between_physical d U U' t : 0 <= t <= 1 -> physical d U -> physical d U' -> physical d (between U U' t).
Proof.
  intros T P P'. assert (L : length U = length U') by (destruct P as [-> _], P' as [-> _]; reflexivity).
  assert (Lb : length (between U U' t) = (d + 2)%nat) by (unfold between; rewrite vadd_length, !vscale_length, <- L; destruct P as [-> _]; apply Nat.min_id).
  destruct (Req_dec t 0) as [->|N].
  - apply (physical_combination d (1 - 0) 0 U' U); trivial; try lra. intros k _. rewrite between_nth by exact L. ring.
  - apply (physical_combination d t (1 - t) U U'); trivial; try lra. intros k _. apply between_nth. exact L.
Qed.

Lemma weighted_state g d n U U' : 1 < g -> length n = d -> physical d U -> physical d U' ->
  exists st, valid st /\ length (st_u st) = d /\
    mean_of d (leaving (inner (st_u st) n) (q_c g st)) (entering (inner (st_u st) n) (q_c g st)) U U' (conservative_list g st).
Proof.
  intros G Ln P P'. assert (L : length U = length U') by (destruct P as [-> _], P' as [-> _]; reflexivity).
  set (W := between U U'). set (un := fun t => unknown_speed d n (W t)). set (c := fun t => unknown_sound g d (W t)).
  set (a := fun t => ((un t + c t) + Rabs (un t + c t)) / 2). set (b := fun t => ((c t - un t) + Rabs (c t - un t)) / 2).
  assert (Ea : forall t, a t = leaving (un t) (c t)) by (intros t; unfold leaving; rewrite max_abs; reflexivity).
  assert (Eb : forall t, b t = entering (un t) (c t)) by (intros t; unfold entering; rewrite max_abs; reflexivity).
  assert (Pos : forall t, 0 <= t <= 1 -> exists st, valid st /\ length (st_u st) = d /\ conservative_list g st = W t /\ un t = inner (st_u st) n /\ c t = q_c g st).
  { intros t T. destruct (proj1 (c57_physical g d (W t) G) (between_physical d U U' t T P P')) as (st & V & Lu & E). exists st.
    destruct (unknown_parts g st n d G V Lu Ln) as [E1 E2]. rewrite E in E1, E2. repeat split; trivial; apply V. }
  assert (Cw : forall k t, continuity_pt (fun t => nth k (W t) 0) t).
  { intros k t. unfold W. apply (continuity_pt_ext_loc (fun t => t * nth k U 0 + (1 - t) * nth k U' 0)).
    - exists (mkposreal 1 Rlt_0_1). intros y _. symmetry. apply between_nth. exact L.
    - apply (keep_plus (fun t => t * nth k U 0) (fun t => (1 - t) * nth k U' 0)).
      + apply (keep_mult (fun t => t) (fun _ => nth k U 0)); [apply keep_id|apply keep_const].
      + apply (keep_mult (fun t => 1 - t) (fun _ => nth k U' 0)); [|apply keep_const]. apply (keep_minus (fun _ => 1) (fun t => t)); [apply keep_const|apply keep_id]. }
  assert (Rho : forall t, 0 <= t <= 1 -> 0 < nth 0 (W t) 0) by (intros t T; apply (between_physical d U U' t T P P')).
  assert (Cun : forall t, 0 <= t <= 1 -> continuity_pt un t).
  { intros t T. unfold un, unknown_speed. apply (keep_div (fun t => total d (fun j => nth (j + 1) (W t) 0 * nth j n 0)) (fun t => nth 0 (W t) 0)); [|apply Cw|specialize (Rho t T); lra].
    apply (keep_total d (fun t j => nth (j + 1) (W t) 0 * nth j n 0)). intros j _. apply (keep_mult (fun t => nth (j + 1) (W t) 0) (fun _ => nth j n 0)); [apply Cw|apply keep_const]. }
  assert (Cc : forall t, 0 <= t <= 1 -> continuity_pt c t).
  { intros t T. unfold c, unknown_sound. set (e := fun t => g * (g - 1) * (nth (d + 1) (W t) 0 - total d (fun j => nth (j + 1) (W t) 0 ^ 2) / (2 * nth 0 (W t) 0)) / nth 0 (W t) 0).
    assert (Ce : continuity_pt e t).
    { unfold e. apply (keep_div (fun t => g * (g - 1) * (nth (d + 1) (W t) 0 - total d (fun j => nth (j + 1) (W t) 0 ^ 2) / (2 * nth 0 (W t) 0))) (fun t => nth 0 (W t) 0)); [|apply Cw|specialize (Rho t T); lra].
      apply (keep_mult (fun _ => g * (g - 1)) (fun t => nth (d + 1) (W t) 0 - total d (fun j => nth (j + 1) (W t) 0 ^ 2) / (2 * nth 0 (W t) 0))); [apply keep_const|].
      apply (keep_minus (fun t => nth (d + 1) (W t) 0) (fun t => total d (fun j => nth (j + 1) (W t) 0 ^ 2) / (2 * nth 0 (W t) 0))); [apply Cw|].
      apply (keep_div (fun t => total d (fun j => nth (j + 1) (W t) 0 ^ 2)) (fun t => 2 * nth 0 (W t) 0)).
      - apply (keep_total d (fun t j => nth (j + 1) (W t) 0 ^ 2)). intros j _. cbn [pow]. apply (keep_mult (fun t => nth (j + 1) (W t) 0) (fun t => nth (j + 1) (W t) 0 * 1)); [apply Cw|].
        apply (keep_mult (fun t => nth (j + 1) (W t) 0) (fun _ => 1)); [apply Cw|apply keep_const].
      - apply (keep_mult (fun _ => 2) (fun t => nth 0 (W t) 0)); [apply keep_const|apply Cw].
      - specialize (Rho t T). lra. }
    assert (P0 : 0 <= e t).
    { destruct (between_physical d U U' t T P P') as (_ & R0 & I). fold (W t) in R0, I. unfold e. apply Rlt_le, Rdiv_lt_0_compat; [|exact R0]. apply Rmult_lt_0_compat; [apply Rmult_lt_0_compat; lra|].
      apply Rlt_Rminus. apply (Rmult_lt_reg_r (2 * nth 0 (W t) 0)); [lra|]. unfold Rdiv. rewrite Rmult_assoc, Rinv_l by lra. lra. }
    exact (continuity_pt_comp e sqrt t Ce (continuity_pt_sqrt (e t) P0)). }
  assert (Ca : forall t, 0 <= t <= 1 -> continuity_pt a t) by (intros t T; apply (keep_max (fun t => un t + c t)), (keep_plus un c); [apply Cun|apply Cc]; exact T).
  assert (Cb : forall t, 0 <= t <= 1 -> continuity_pt b t) by (intros t T; apply (keep_max (fun t => c t - un t)), (keep_minus c un); [apply Cc|apply Cun]; exact T).
  assert (Sd : forall t, 0 <= t <= 1 -> 0 <= a t /\ 0 <= b t /\ 0 < a t + b t).
  { intros t T. destruct (Pos t T) as (st & V & _ & _ & E1 & E2). rewrite Ea, Eb, E1, E2. apply sides_positive, q_c_pos; assumption. }
  assert (Root : exists t, 0 <= t <= 1 /\ t * (a t + b t) - a t = 0).
  { destruct (Sd 0 ltac:(lra)) as (A0 & _ & _). destruct (Sd 1 ltac:(lra)) as (_ & B1 & _).
    destruct (Req_dec (a 0) 0) as [Z|NZ]; [exists 0; split; lra|]. destruct (Req_dec (b 1) 0) as [Z|NZ']; [exists 1; split; lra|].
    destruct (IVT_interv (fun t => t * (a t + b t) - a t) 0 1) as (t & T & E); try lra.
    - intros t T. apply (keep_minus (fun t => t * (a t + b t)) a); [|apply Ca, T]. apply (keep_mult (fun t => t) (fun t => a t + b t)); [apply keep_id|]. apply (keep_plus a b); [apply Ca|apply Cb]; exact T.
    - exists t. split; [exact T|exact E]. }
  destruct Root as (t & T & Z). destruct (Pos t T) as (st & V & Lu & EW & E1 & E2). exists st. split; [exact V|]. split; [exact Lu|].
  rewrite <- E1, <- E2, <- Ea, <- Eb. intros i I. rewrite EW. unfold W. rewrite between_nth by exact L. destruct (Sd t T) as (_ & _ & Q).
  replace t with (a t / (a t + b t)) at 1 2; [field; lra|]. apply (Rmult_eq_reg_r (a t + b t)); [|lra]. unfold Rdiv. rewrite Rmult_assoc, Rinv_l by lra. lra.
Qed.

(** With every solver but Upwind there is a state for the facet, between those of the elements. *)
Theorem c80_exists : forall s n U U', 1 < s_gamma s -> length n = s_dim s -> physical (s_dim s) U -> physical (s_dim s) U' ->
  s_riemann s <> Upwind -> s_riemann s = LaxFriedrich \/ s_riemann s = HLL \/ (s_dim s = 2%nat /\ exists n0 n1, unit2 n n0 n1) ->
  exists st a b, valid st /\ length (st_u st) = s_dim s /\ balanced s U U' st n /\
    0 <= a /\ 0 <= b /\ 0 < a + b /\ mean_of (s_dim s) a b U U' (conservative_list (s_gamma s) st).
Proof.
  intros s n U U' G Ln P P' NU R. assert (L : length U = length U') by (destruct P as [-> _], P' as [-> _]; reflexivity). pose proof (proj1 P) as LU. pose proof (proj1 P') as LU'.
  assert (Mid : exists st, valid st /\ length (st_u st) = s_dim s /\ mean_of (s_dim s) 1 1 U U' (conservative_list (s_gamma s) st)).
  { destruct (proj1 (c57_physical (s_gamma s) (s_dim s) (between U U' (1 / 2)) G) (between_physical _ U U' (1 / 2) ltac:(lra) P P')) as (st & V & Lu & E). exists st. split; [exact V|]. split; [exact Lu|].
    intros i I. rewrite E, between_nth by exact L. field. }
  destruct (weighted_state (s_gamma s) (s_dim s) n U U' G Ln P P') as (st & V & Lu & M). destruct Mid as (st' & V' & Lu' & M').
  destruct (sides_positive (inner (st_u st) n) (q_c (s_gamma s) st) (q_c_pos _ _ G V)) as (A0 & B0 & AB).
  destruct (s_riemann s) as [| | | |t] eqn:Er; [congruence| | | |].
  - exists st', 1, 1. split; [exact V'|]. split; [exact Lu'|]. split; [exact (proj2 (proj1 (c80_scalar s st' U U' n G V' Lu' Ln LU LU') Er) M')|]. repeat split; lra || exact M'.
  - destruct R as [R|[R|(D2 & n0 & n1 & N)]]; try discriminate R. rewrite D2 in *.
    exists st', 1, 1. split; [exact V'|]. split; [exact Lu'|]. destruct (c80_roe s st' U U' n n0 n1 G V' D2 Lu' N LU LU' Er) as (Q & _ & _ & X & _). split; [exact (X M')|]. repeat split; lra || exact M'.
  - eexists st, _, _. split; [exact V|]. split; [exact Lu|]. split; [exact (proj2 (proj2 (c80_scalar s st U U' n G V Lu Ln LU LU') Er) M)|]. split; [exact A0|]. split; [exact B0|]. split; [exact AB|exact M].
  - destruct R as [R|[R|(D2 & n0 & n1 & N)]]; try discriminate R. rewrite D2 in *.
    eexists st, _, _. split; [exact V|]. split; [exact Lu|]. split; [exact (proj1 (c80_hllem s st U U' n n0 n1 t G V D2 Lu N LU LU' Er) M)|]. split; [exact A0|]. split; [exact B0|]. split; [exact AB|exact M].
Qed.
Print Assumptions c80_exists.

(** ** The equation of the facets *)

Lemma weighted_nonneg_zero q f : (forall w x, In (w, x) q -> 0 < w /\ 0 <= f x) -> 0 <= weighted q f /\ (weighted q f = 0 -> forall w x, In (w, x) q -> f x = 0).
Proof.
  induction q as [|[w x] q IH]; intros H; cbn [weighted]; [split; [lra|intros _ w x []]|].
  destruct (H w x (or_introl eq_refl)) as [W F]. destruct (IH (fun w' x' I => H w' x' (or_intror I))) as [P Z]. assert (A : 0 <= w * f x) by (apply Rmult_le_pos; lra). split; [lra|].
  intros E w' x' [I|I]; [|apply (Z ltac:(lra) w' x' I)]. injection I as <- <-. assert (X : w * f x = 0) by lra. apply Rmult_integral in X. destruct X; lra.
Qed.

Lemma total_squares n f : 0 <= total n (fun k => f k * f k) /\ (total n (fun k => f k * f k) = 0 -> forall k, (k < n)%nat -> f k = 0).
Proof.
  induction n as [|n [P Z]]; cbn [total]; [split; [lra|intros _ k K; lia]|]. pose proof (Rle_0_sqr (f n)) as Q. unfold Rsqr in Q. split; [lra|].
  intros E k K. destruct (Nat.eq_dec k n) as [->|N]; [|apply Z; [lra|lia]]. assert (X : f n * f n = 0) by lra. apply Rmult_integral in X. destruct X; assumption.
Qed.

(** The facet states solve the equation of the facets, for every function of the facets, exactly if the fluxes balance at all points
    between elements. *)
Theorem c80_facet_equation : forall s m u st twin vol bnd,
  two_sided m bnd twin -> (forall y, twin (twin y) = y) -> (forall w y, In (w, y) bnd -> 0 < w) ->
  (forall w x, In (w, x) vol -> exists F, convection_F s u x = Ok F) ->
  (forall w y, In (w, y) bnd -> exists f, convection_Fn s m u y = Ok f /\ length f = (s_dim s + 2)%nat) ->
  (forall y, uUhat u y = conservative_list (s_gamma s) (st y) /\ uUhat u (twin y) = uUhat u y) ->
  ((forall t, facet_test (s_dim s) twin t -> convection_form s m vol bnd u t = Ok 0) <->
   (forall w y, In (w, y) (inner_points m bnd) -> balanced s (uU u y) (uU u (twin y)) (st y) (normal m y))).
Proof.
  intros s m u st twin vol bnd Tw Inv Wp Cv Cb Uh. set (d := s_dim s) in *. set (q := fun k y => component (convection_Fn s m u) k y). destruct Tw as [Pm Op]. fold (inner_points m bnd) in Pm, Op.
  set (I := inner_points m bnd) in *. assert (Ib : forall w y, In (w, y) I -> In (w, y) bnd) by (intros w y Hy; apply in_at_points in Hy; apply Hy).
  assert (It : forall w y, In (w, y) I -> In (w, twin y) I).
  { intros w y Hy. apply (Permutation.Permutation_in _ Pm). apply (in_map (fun wy => (fst wy, twin (snd wy))) I (w, y)) in Hy. exact Hy. }
  assert (Bl : forall w y, In (w, y) I -> (balanced s (uU u y) (uU u (twin y)) (st y) (normal m y) <-> forall k, (k < d + 2)%nat -> q k y + q k (twin y) = 0)).
  { intros w y Hy. destruct (Cb w y (Ib _ _ Hy)) as (f & Ef & Lf). destruct (Cb w (twin y) (Ib _ _ (It _ _ Hy))) as (f' & Ef' & Lf').
    assert (Qf : forall k, q k y = nth k f 0) by (intros k; unfold q, component; rewrite Ef; reflexivity). assert (Qf' : forall k, q k (twin y) = nth k f' 0) by (intros k; unfold q, component; rewrite Ef'; reflexivity).
    unfold convection_Fn in Ef, Ef'. rewrite (proj2 (Uh y)), (Op w y Hy) in Ef'. rewrite (proj1 (Uh y)) in Ef, Ef'. split.
    - intros (h & h' & E & E' & B) k K. rewrite Ef in E. rewrite Ef' in E'. apply ok_inj in E, E'. subst h h'. rewrite Qf, Qf'. apply B, K.
    - intros B. exists f, f'. split; [exact Ef|]. split; [exact Ef'|]. intros k K. rewrite <- Qf, <- Qf'. apply B, K. }
  assert (Fm : forall t, facet_test d twin t -> convection_form s m vol bnd u t = Ok (- (weighted I (fun y => total (d + 2) (fun k => (q k y + q k (twin y)) * nth k (tVhat t y) 0)) / 2))).
  { intros t (Wf & Sv & Z). unfold convection_form.
    rewrite (integral_make vol _ (fun _ => 0)). 2: { intros w x Hx. destruct (Cv w x Hx) as (F & ->). cbn [bind]. rewrite (proj2 (Z x)), tabulate_zero, L_Weak.inner_zero. f_equal. ring. }
    cbn [bind]. rewrite (integral_make bnd _ (fun _ => 0)). 2: { intros w y Hy. destruct (Cb w y Hy) as (f & -> & _). cbn [bind]. rewrite (proj1 (Z y)), L_Weak.inner_zero. reflexivity. }
    cbn [bind]. rewrite (integral_make bnd _ (fun y => -1 * (if negb (outer_facet m (facet m y)) then total (d + 2) (fun k => q k y * nth k (tVhat t y) 0) else 0))).
    2: { intros w y Hy. destruct (Cb w y Hy) as (f & Ef & Lf). rewrite Ef. cbn [bind]. f_equal. destruct (Wf y) as (_ & LV & _). rewrite inner_total by congruence. rewrite Lf.
         rewrite (total_ext (fun k => q k y * nth k (tVhat t y) 0) (fun k => nth k f 0 * nth k (tVhat t y) 0)) by (intros k _; unfold q, component; rewrite Ef; reflexivity).
         unfold mask. destruct (outer_facet m (facet m y)); cbn [negb]; ring. }
    cbn [bind]. f_equal. rewrite !(weighted_zero _ (fun _ => 0)) by reflexivity. rewrite weighted_scale, weighted_select. fold (inner_points m bnd). fold I.
    set (a := fun y => total (d + 2) (fun k => q k y * nth k (tVhat t y) 0)).
    assert (A : weighted I (fun y => a (twin y)) = weighted I a) by (rewrite <- weighted_map; apply weighted_permutation, Pm).
    rewrite (weighted_ext I (fun y => total (d + 2) (fun k => (q k y + q k (twin y)) * nth k (tVhat t y) 0)) (fun y => a y + a (twin y))).
    - rewrite weighted_plus, A. field.
    - intros w y _. unfold a. rewrite <- total_plus. apply total_ext. intros k _. rewrite Sv. ring. }
  split.
  - intros H. set (j := fun y => map (fun k => q k y + q k (twin y)) (seq 0 (d + 2))).
    set (t := mk_test (fun _ => repeat 0 (d + 2)) (fun _ => tabulate (d + 2) d (fun _ _ => 0)) j).
    assert (Ft : facet_test d twin t).
    { split; [|split].
      - intros x. cbn [t tV tdV tVhat]. split; [apply repeat_length|]. split; [unfold j; rewrite map_length, seq_length; reflexivity|]. split; [reflexivity|]. split; [reflexivity|]. apply tabulate_length.
      - intros y. cbn [t tVhat]. unfold j. apply map_ext. intros k. rewrite Inv. ring.
      - intros x. split; reflexivity. }
    specialize (H t Ft). rewrite (Fm t Ft) in H. apply ok_inj in H.
    assert (Sq : weighted I (fun y => total (d + 2) (fun k => (q k y + q k (twin y)) * (q k y + q k (twin y)))) = 0).
    { rewrite <- (weighted_ext I (fun y => total (d + 2) (fun k => (q k y + q k (twin y)) * nth k (tVhat t y) 0))); [lra|]. intros w y _. apply total_ext. intros k K. f_equal. cbn [t tVhat]. unfold j.
      rewrite (nth_indep _ 0 (q 0%nat y + q 0%nat (twin y))) by (rewrite map_length, seq_length; exact K). rewrite (map_nth (fun k => q k y + q k (twin y))), seq_nth by exact K. reflexivity. }
    assert (Nn : forall x, 0 <= total (d + 2) (fun k => (q k x + q k (twin x)) * (q k x + q k (twin x)))) by (intros x; apply (total_squares (d + 2) (fun k => q k x + q k (twin x)))).
    intros w y Hy. apply (Bl w y Hy). intros k K.
    pose proof (proj2 (weighted_nonneg_zero I _ (fun w' x' Hx => conj (Wp w' x' (Ib _ _ Hx)) (Nn x'))) Sq w y Hy) as Z. cbv beta in Z.
    exact (proj2 (total_squares (d + 2) (fun k => q k y + q k (twin y))) Z k K).
  - intros H t Ft. rewrite (Fm t Ft). f_equal. rewrite weighted_zero; [field|]. intros w y Hy. rewrite (total_ext _ (fun _ => 0)); [apply total_zero|]. intros k K. rewrite (proj1 (Bl w y Hy) (H w y Hy) k K). ring.
Qed.
Print Assumptions c80_facet_equation.

(** ** Examples *)

(** Two elements with one facet between them, seen from both sides. *)
Definition pair_mesh : mesh := mk_mesh (fun y => y) (fun _ => 0%nat) (fun y => match y with 0%nat => [1; 0] | _ => [-1; 0] end) (fun _ => false).
Definition pair_rules : rules := mk_rules [] [(1, 0%nat); (1, 1%nat)] [] [] [].
Definition still : state := mk_state 1 [0; 0] 1.
Definition no_grads : grads := mk_grads None None None None None None None None None None None None None.
Definition still_air : unknowns := mk_unknowns (fun _ => conservative_list (7 / 5) still) (fun _ => []) (fun _ => no_grads).

(** Gases of density 1 and 3 at rest with the same pressure: the facet has density 2.  A flow along a facet: with Upwind the facet may
    have density 9 between elements with density 7/5, with Lax-Friedrichs it may not.  A flow faster than sound: the facet has the
    state upstream. *)
Example c80_example :
  (exists st, valid st /\ balanced air [1; 0; 0; 5 / 2] [3; 0; 0; 5 / 2] st [1; 0] /\ conservative_list (7 / 5) st = [2; 0; 0; 5 / 2]) /\
  (let U := conservative_list (7 / 5) wave_state in balanced (with_riemann air Upwind) U U (with_density 9 wave_state) [4 / 5; - (3 / 5)] /\
     ~ balanced air U U (with_density 9 wave_state) [4 / 5; - (3 / 5)]) /\
  (let U := conservative_list (7 / 5) wave_state in balanced (with_riemann air HLL) U [1; 0; 0; 5 / 2] wave_state [3 / 5; 4 / 5]) /\
  (forall rho sc t, (forall y, 0 < rho y) ->
     weak_form (with_riemann air Upwind) pair_mesh pair_rules [] [] sc (with_facets (fun y => conservative_list (7 / 5) (with_density (rho y) still)) still_air) t =
     weak_form (with_riemann air Upwind) pair_mesh pair_rules [] [] sc (with_facets (fun y => conservative_list (7 / 5) still) still_air) t).
Proof.
  assert (Wv : valid wave_state) by (split; cbn; lra). split; [|split; [|split]].
  - assert (P : forall a, 0 < a -> physical 2 [a; 0; 0; 5 / 2]) by (intros a A; split; [reflexivity|]; cbn; split; lra).
    destruct (c80_exists air [1; 0] [1; 0; 0; 5 / 2] [3; 0; 0; 5 / 2]) as (st & a & b & V & Lu & B & _); try (apply P; lra); try reflexivity; try discriminate; [cbn; lra|left; reflexivity|].
    exists st. split; [exact V|]. split; [exact B|]. cbn [s_dim air] in Lu.
    pose proof (proj1 (proj1 (c80_scalar air st [1; 0; 0; 5 / 2] [3; 0; 0; 5 / 2] [1; 0] ltac:(cbn; lra) V Lu eq_refl eq_refl eq_refl) eq_refl) B) as M. cbn [s_dim air s_gamma] in M.
    apply (nth_ext _ _ 0 0); [rewrite conservative_list_length, Lu; reflexivity|]. intros i I. rewrite conservative_list_length, Lu in I. rewrite (M i I). four i I; cbn [nth]; field.
  - intros U. split.
    + apply (c80_contact_refuted (with_riemann air Upwind) wave_state [4 / 5; - (3 / 5)] (4 / 5) (- (3 / 5)) 9); try reflexivity; try exact Wv; [cbn; lra|split; [reflexivity|lra]|cbn; lra|left; reflexivity|lra].
    + intros B. pose proof (c80_unique air (with_density 9 wave_state) U [4 / 5; - (3 / 5)] ltac:(cbn; lra) ltac:(split; cbn; lra) eq_refl eq_refl eq_refl (or_introl eq_refl) B) as E.
      apply (f_equal (fun l => nth 0 l 0)) in E. cbn in E. lra.
  - intros U. pose proof (proj2 (proj2 (c80_scalar (with_riemann air HLL) wave_state U [1; 0; 0; 5 / 2] [3 / 5; 4 / 5] ltac:(cbn; lra) Wv eq_refl eq_refl eq_refl eq_refl) eq_refl)) as X. apply X.
    cbn [s_dim s_gamma with_riemann air]. assert (C : q_c (7 / 5) wave_state = 2) by (unfold q_c; cbn; replace (7 / 5 * 4 / (7 / 5)) with (2 * 2) by field; apply sqrt_square; lra).
    rewrite C. replace (inner (st_u wave_state) [3 / 5; 4 / 5]) with 5 by (cbn; field). unfold leaving, entering. rewrite (Rmax_left (5 + 2)), (Rmax_right (2 - 5)) by lra.
    intros i I. fold U. field.
  - intros rho sc t R0. apply (c80_free_density_refuted (with_riemann air Upwind) pair_mesh pair_rules [] [] sc still_air t (fun _ => still) rho); try reflexivity; [cbn; lra|left; reflexivity| |left; reflexivity].
    intros w y [I|[]]. split; [|split; [split; cbn; lra|]; split; [reflexivity|]; split; [|split; [reflexivity|apply R0]]].
    + destruct I as [I|[I|[]]]; injection I as _ <-; [exists 1, 0|exists (-1), 0]; (split; [reflexivity|lra]).
    + destruct I as [I|[I|[]]]; injection I as _ <-; cbn; ring.
Qed.
