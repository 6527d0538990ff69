(** C81: the viscous terms of the characteristic boundary conditions in a turned coordinate system. *)
From Coq Require Import Reals String List Arith Bool Lia Lra.
From Coquelicot Require Import Coquelicot.
From Verif Require Import Base M_Bla M_Flow M_Formulation M_Weak M_Mixed M_Viscous S_Flow S_Chars S_Formulation S_Stress S_Weak S_Mixed S_Viscous S_Turn L_Flow L_Formulation L_Weak P_Eos P_Chars P_Jacobian L_Small L_Turn P_Stress P_Trace L_Turn2 P_Cbc P_Viscous P_Turn P_Turn2 P_Turn3.
From Verif Require Import S_Formulation.
Import ListNotations.
Open Scope R_scope.
Open Scope list_scope.

(** The derivatives in space of the mixed unknown: strain rate and temperature gradient turn, and so does the direction of the derivative. *)
Definition turn_mixed_slopes (A : nat -> nat -> R) (dQ : matrix) : matrix :=
  tabulate 5 2 (fun k j => total 2 (fun l => A j l * nth k (turn_five A (map (fun i => entry dQ i l) (seq 0 5))) 0)).

(** What the terms hold beside the derivative of the diffusive flux: the stress along the boundary is read from the
    wrong place of the tensor, and enters the second momentum and the energy; [g]: the normal derivative of the mixed
    unknown, [k] = mu/Re. *)
Definition kept_tensor (tg : cbc_target) (g n t : list R) (i j : nat) : R :=
  match tg with
  | TOutflow => along g n n * (nth i n 0 * nth j n 0) + along g n t * (nth i t 0 * nth j t 0)
  | _ => along g n t * (nth i n 0 * nth j t 0 + nth i t 0 * nth j n 0 + nth i t 0 * nth j t 0)
  end.
Definition misplaced (tg : cbc_target) (k : R) (u g n t : list R) : list R :=
  let err := 2 * k * nth 1 n 0 * (kept_tensor tg g n t 0 1 - kept_tensor tg g n t 1 1) in [0; 0; err; nth 1 u 0 * err].

Section Plane.
Variables (A : nat -> nat -> R) (a b g : R).
Hypothesis E00 : A 0%nat 0%nat = a.
Hypothesis E01 : A 0%nat 1%nat = - g * b.
Hypothesis E10 : A 1%nat 0%nat = b.
Hypothesis E11 : A 1%nat 1%nat = g * a.
Hypothesis Ab : a * a = 1 - b * b.
Hypothesis Gg : g * g = 1.

Lemma turn_four v0 v1 v2 v3 : turn 2 A [v0; v1; v2; v3] = [v0; a * v1 - g * b * v2; b * v1 + g * a * v2; v3].
Proof. unfold turn, carry, turn_of. cbn. rewrite E00, E01, E10, E11. apply f_equal2; [ring|]. apply f_equal2; [ring|]. apply f_equal2; [ring|]. apply f_equal2; [ring|reflexivity]. Qed.

Lemma five_turn q0 q1 q2 q3 q4 : turn_five A [q0; q1; q2; q3; q4] =
  [a * a * q0 - 2 * g * a * b * q1 + b * b * q2; a * b * q0 + g * (a * a - b * b) * q1 - a * b * q2; b * b * q0 + 2 * g * a * b * q1 + a * a * q2; a * q3 - g * b * q4; b * q3 + g * a * q4].
Proof. unfold turn_five, turn_of, stored. cbn. rewrite E00, E01, E10, E11. repeat (apply f_equal2; [ring [Gg]|]). reflexivity. Qed.

Lemma slopes_turn dU x0 x1 : rows dU = 4%nat -> cols dU = 2%nat -> mvmul (turn_gradient 2 A dU) (turn_vector 2 A [x0; x1]) = turn 2 A (mvmul dU [x0; x1]).
Proof.
  intros Rw Cl. apply turn_make; [rewrite mvmul_length; reflexivity|]. intros i I. change (2 + 2)%nat with 4%nat in I. rewrite mvmul_total by exact I.
  change (cols (turn_gradient 2 A dU)) with 2%nat. cbn [total]. unfold turn_gradient. rewrite !entry_tabulate by lia. rewrite (turn_two A a b g E00 E01 E10 E11). cbn [nth].
  unfold carry, turn_of. destruct i as [|[|[|[|i]]]]; [..|lia]; cbn [Nat.eqb Nat.leb Nat.sub total Nat.add]; rewrite !mvmul_total by lia; rewrite Cl; cbn [total nth]; rewrite ?E00, ?E01, ?E10, ?E11; ring [Ab Gg].
Qed.

Lemma mixed_slopes_turn dQ x0 x1 : rows dQ = 5%nat -> cols dQ = 2%nat -> mvmul (turn_mixed_slopes A dQ) (turn_vector 2 A [x0; x1]) = turn_five A (mvmul dQ [x0; x1]).
Proof.
  intros Rw Cl. assert (L : length (mvmul dQ [x0; x1]) = 5%nat) by (rewrite mvmul_length; exact Rw). rewrite (five_q _ L). rewrite !mvmul_total by lia. rewrite Cl. cbn [total nth].
  apply nth_ext with (d := 0) (d' := 0); [rewrite mvmul_length; reflexivity|]. intros i I. rewrite mvmul_length in I. change (i < 5)%nat in I. rewrite mvmul_total by exact I.
  change (cols (turn_mixed_slopes A dQ)) with 2%nat. cbn [total]. unfold turn_mixed_slopes. rewrite !entry_tabulate by lia. rewrite (turn_two A a b g E00 E01 E10 E11). cbn [nth total map seq]. rewrite !five_turn, E00, E01, E10, E11.
  destruct i as [|[|[|[|[|i]]]]]; [..|lia]; cbn [nth]; ring [Ab Gg].
Qed.
End Plane.

(** Without what is misplaced the terms turn with the coordinate system. *)
Theorem c81_viscous_terms : forall s A tg st Q dU dQ n t n0 n1 t0 t1 re pr mu V, 1 < s_gamma s -> s_dim s = 2%nat -> orthogonal 2 A -> boundary_point s st Q dU dQ n t n0 n1 t0 t1 ->
  reference_reynolds_number s = Ok re -> prandtl_number s = Ok pr -> re <> 0 -> pr <> 0 ->
  get_conservative_fields s (conservative_list (s_gamma s) st) = Ok V -> viscosity s V = Ok mu ->
  let U := conservative_list (s_gamma s) st in
  let u := st_u st in
  exists S S', cbc_viscous_terms s MStrainHeat tg U Q dU dQ n t = Ok S /\ length S = 4%nat /\ length S' = 4%nat /\
    cbc_viscous_terms s MStrainHeat tg (turn 2 A U) (turn_five A Q) (turn_gradient 2 A dU) (turn_mixed_slopes A dQ) (turn_vector 2 A n) (turn_vector 2 A t) = Ok S' /\
    vsub S' (misplaced tg (mu / re) (turn_vector 2 A u) (turn_five A (mvmul dQ n)) (turn_vector 2 A n) (turn_vector 2 A t)) = turn 2 A (vsub S (misplaced tg (mu / re) u (mvmul dQ n) n t)).
Proof.
  intros s A tg st Q dU dQ n t n0 n1 t0 t1 re pr mu V G D2 Or B Er Ep R0 P0 EV Em U u.
  destruct B as (Va & Lu & LQ & U1 & U2 & U3 & Q1 & Q2 & Q3 & Hn & Ht & O). pose proof Hn as Hn'. pose proof Ht as Ht'. destruct Hn' as [En Nn]. destruct Ht' as [Et Nt].
  destruct (orthogonal_plane A Or) as (a & b & g & Ab & Gg & E00 & E01 & E10 & E11). assert (Aa : a * a = 1 - b * b) by lra.
  assert (EV' := EV). rewrite fields_ok in EV' by (trivial; congruence). apply ok_inj in EV'. subst V.
  set (st' := turn_state A st). assert (Va' : valid st') by (apply turn_state_valid; trivial). assert (Eu' : st_u st' = turn_vector 2 A (st_u st)) by (unfold st', turn_state; cbn; now rewrite Lu).
  assert (Lu' : length (st_u st') = 2%nat) by (rewrite Eu'; apply turn_vector_length).
  assert (EU : conservative_list (s_gamma s) st' = turn 2 A U) by (apply turn_state_list; trivial).
  assert (EV2 : get_conservative_fields s (conservative_list (s_gamma s) st') = Ok (full_fields s st')) by (apply fields_ok; trivial; exact (eq_trans Lu' (eq_sym D2))).
  assert (Em' : viscosity s (full_fields s st') = Ok mu) by (rewrite <- Em; reflexivity).
  set (n0' := a * n0 - g * b * n1). set (n1' := b * n0 + g * a * n1). set (t0' := a * t0 - g * b * t1). set (t1' := b * t0 + g * a * t1).
  assert (Tn : turn_vector 2 A n = [n0'; n1']) by (rewrite En; apply turn_two; assumption). assert (Tt : turn_vector 2 A t = [t0'; t1']) by (rewrite Et; apply turn_two; assumption).
  assert (Hn' : unit2 (turn_vector 2 A n) n0' n1') by (split; [exact Tn|unfold n0', n1'; transitivity (n0 * n0 + n1 * n1); [ring [Aa Gg]|exact Nn]]).
  assert (Ht' : unit2 (turn_vector 2 A t) t0' t1') by (split; [exact Tt|unfold t0', t1'; transitivity (t0 * t0 + t1 * t1); [ring [Aa Gg]|exact Nt]]).
  assert (O' : n0' * t0' + n1' * t1' = 0) by (unfold n0', n1', t0', t1'; transitivity (n0 * t0 + n1 * t1); [ring [Aa Gg]|exact O]).
  destruct (c64_terms s tg st Q dU dQ n t n0 n1 t0 t1 re pr mu (full_fields s st) G D2 Va Lu LQ U1 U2 U3 Q1 Q2 Q3 Hn Ht O Er Ep R0 P0 EV Em) as (q & Jt & Jn & Kt & S & E1 & E2 & E3 & E4 & E5 & E6 & E7).
  destruct (c64_terms s tg st' (turn_five A Q) (turn_gradient 2 A dU) (turn_mixed_slopes A dQ) (turn_vector 2 A n) (turn_vector 2 A t) n0' n1' t0' t1' re pr mu (full_fields s st') G D2 Va' Lu' eq_refl eq_refl eq_refl eq_refl eq_refl eq_refl eq_refl Hn' Ht' O' Er Ep R0 P0 EV2 Em')
    as (q' & Jt' & Jn' & Kt' & S' & F1 & F2 & F3 & F4 & F5 & F6 & F7).
  exists S, S'. split; [exact E5|]. split; [exact E6|]. split; [exact F6|]. rewrite EU in F5. split; [exact F5|].
  assert (Ln : length n = 2%nat) by (rewrite En; reflexivity). assert (Lt : length t = 2%nat) by (rewrite Et; reflexivity).
  pose proof (turn_vector_length 2 A n) as Ln'. pose proof (turn_vector_length 2 A t) as Lt'.
  rewrite (mixed_fields_ok s D2 Q LQ) in E1. apply ok_inj in E1. subst q. rewrite (mixed_fields_ok s D2 (turn_five A Q) eq_refl) in F1. apply ok_inj in F1. subst q'.
  destruct (conservative_jacobian_ok s mu re D2 Er st Q t Va Lu LQ Lt R0 Em) as (J1 & X1 & Y1). rewrite E2 in X1. apply ok_inj in X1. subst J1.
  destruct (conservative_jacobian_ok s mu re D2 Er st Q n Va Lu LQ Ln R0 Em) as (J1 & X1 & Y2). rewrite E3 in X1. apply ok_inj in X1. subst J1.
  destruct (mixed_jacobian_ok s mu re pr D2 Er Ep st t Va Lu Lt R0 P0 Em) as (J1 & X1 & Y3). rewrite E4 in X1. apply ok_inj in X1. subst J1.
  destruct (conservative_jacobian_ok s mu re D2 Er st' (turn_five A Q) _ Va' Lu' eq_refl Lt' R0 Em') as (J1 & X1 & Y1'). rewrite F2 in X1. apply ok_inj in X1. subst J1.
  destruct (conservative_jacobian_ok s mu re D2 Er st' (turn_five A Q) _ Va' Lu' eq_refl Ln' R0 Em') as (J1 & X1 & Y2'). rewrite F3 in X1. apply ok_inj in X1. subst J1.
  destruct (mixed_jacobian_ok s mu re pr D2 Er Ep st' _ Va' Lu' Lt' R0 P0 Em') as (J1 & X1 & Y3'). rewrite F4 in X1. apply ok_inj in X1. subst J1.
  cbv zeta in Y1, Y2, Y1', Y2', E7, F7. clear E2 E3 E4 E5 F2 F3 F4 F5 EU EV EV2 Em Em' Hn Hn' Ht Ht' O O' Er Ep.
  assert (SU : forall x0 x1, mvmul (turn_gradient 2 A dU) (turn_vector 2 A [x0; x1]) = turn 2 A (mvmul dU [x0; x1])) by (intros; now apply (slopes_turn A a b g)).
  assert (SQ : forall x0 x1, mvmul (turn_mixed_slopes A dQ) (turn_vector 2 A [x0; x1]) = turn_five A (mvmul dQ [x0; x1])) by (intros; now apply (mixed_slopes_turn A a b g)).
  assert (LU : forall x, length (mvmul dU x) = 4%nat) by (intros x; rewrite mvmul_length; exact U1). assert (LD : forall x, length (mvmul dQ x) = 5%nat) by (intros x; rewrite mvmul_length; exact Q1).
  rewrite (Y1 _ (LU t)), (Y2 _ (LU n)), (Y3 _ (LD t)) in E7. subst n t. rewrite !SU, !SQ in F7.
  rewrite (Y1' _ (turn_length 2 A _)), (Y2' _ (turn_length 2 A _)), (Y3' (turn_five A (mvmul dQ [t0; t1])) eq_refl) in F7. clear Y1 Y2 Y3 Y1' Y2' Y3' SU SQ.
  rewrite Eu', Tn, Tt in F7. rewrite Tn, Tt. change (st_rho st') with (st_rho st) in F7. clear Tn Tt Eu' Lu' Ln Lt Ln' Lt'.
  pose proof (two_u _ Lu) as Xu. pose proof (five_q _ LQ) as XQ. pose proof (four_q _ (LU [t0; t1])) as Xt. pose proof (four_q _ (LU [n0; n1])) as Xn. pose proof (five_q _ (LD [t0; t1])) as Yt. pose proof (five_q _ (LD [n0; n1])) as Yn.
  fold u in Xu, F7, E7.
  assert (Vu : turn_vector 2 A u = [a * nth 0 u 0 - g * b * nth 1 u 0; b * nth 0 u 0 + g * a * nth 1 u 0]) by (rewrite Xu at 1; apply turn_two; assumption).
  assert (VQ := five_turn A a b g E00 E01 E10 E11 Gg (nth 0 Q 0) (nth 1 Q 0) (nth 2 Q 0) (nth 3 Q 0) (nth 4 Q 0)). rewrite <- XQ in VQ.
  set (dt := mvmul dU [t0; t1]) in *. set (dn := mvmul dU [n0; n1]) in *. set (qt := mvmul dQ [t0; t1]) in *. set (qn := mvmul dQ [n0; n1]) in *.
  assert (Vt := turn_four A a b g E00 E01 E10 E11 (nth 0 dt 0) (nth 1 dt 0) (nth 2 dt 0) (nth 3 dt 0)). rewrite <- Xt in Vt.
  assert (Vn := turn_four A a b g E00 E01 E10 E11 (nth 0 dn 0) (nth 1 dn 0) (nth 2 dn 0) (nth 3 dn 0)). rewrite <- Xn in Vn.
  assert (Wt := five_turn A a b g E00 E01 E10 E11 Gg (nth 0 qt 0) (nth 1 qt 0) (nth 2 qt 0) (nth 3 qt 0) (nth 4 qt 0)). rewrite <- Yt in Wt.
  assert (Wn := five_turn A a b g E00 E01 E10 E11 Gg (nth 0 qn 0) (nth 1 qn 0) (nth 2 qn 0) (nth 3 qn 0) (nth 4 qn 0)). rewrite <- Yn in Wn.
  rewrite Vu, VQ, Vt, Vn, Wt, Wn in F7. rewrite Vu, Wn. set (k := mu / re) in *. set (h := k / pr) in *.
  rewrite (four_q S E6), (four_q S' F6). rewrite !E7, !F7 by lia. clear E7 F7 Vu VQ Vt Vn Wt Wn. unfold misplaced. cbn [vsub nth]. rewrite (turn_four A a b g E00 E01 E10 E11).
  unfold kept_tensor, kept, kept_stress, kept_heat, along, flux_in, traction. cbn [nth]. fold h. unfold Rdiv. set (ir := / st_rho st).
  set (u0 := nth 0 u 0). set (u1 := nth 1 u 0). set (x0 := nth 0 Q 0). set (x1 := nth 1 Q 0). set (x2 := nth 2 Q 0). set (x3 := nth 3 Q 0). set (x4 := nth 4 Q 0).
  unfold n0', n1', t0', t1'. clear - Aa Gg. apply f_equal2; [ring|]. apply f_equal2; [destruct tg; ring [Aa Gg]|]. apply f_equal2; [destruct tg; ring [Aa Gg]|]. apply f_equal2; [destruct tg; ring [Aa Gg]|reflexivity].
Qed.
Print Assumptions c81_viscous_terms.

(** On a boundary along an axis the terms turn with half a turn; on a vertical line, and at an outflow, also with reflections at the axes. *)
Theorem c81_viscous_axes : forall s A tg st Q dU dQ n t n0 n1 t0 t1 re pr mu V, 1 < s_gamma s -> s_dim s = 2%nat -> orthogonal 2 A -> A 0%nat 1%nat = 0 -> boundary_point s st Q dU dQ n t n0 n1 t0 t1 -> n0 * n1 = 0 -> n1 = 0 \/ tg = TOutflow \/ A 0%nat 0%nat = A 1%nat 1%nat ->
  reference_reynolds_number s = Ok re -> prandtl_number s = Ok pr -> re <> 0 -> pr <> 0 ->
  get_conservative_fields s (conservative_list (s_gamma s) st) = Ok V -> viscosity s V = Ok mu ->
  let U := conservative_list (s_gamma s) st in
  exists S, cbc_viscous_terms s MStrainHeat tg U Q dU dQ n t = Ok S /\ length S = 4%nat /\
    cbc_viscous_terms s MStrainHeat tg (turn 2 A U) (turn_five A Q) (turn_gradient 2 A dU) (turn_mixed_slopes A dQ) (turn_vector 2 A n) (turn_vector 2 A t) = Ok (turn 2 A S).
Proof.
  intros s A tg st Q dU dQ n t n0 n1 t0 t1 re pr mu V G D2 Or A01 B Ax Cs Er Ep R0 P0 EV Em U.
  destruct (c81_viscous_terms s A tg st Q dU dQ n t n0 n1 t0 t1 re pr mu V G D2 Or B Er Ep R0 P0 EV Em) as (S & S' & E1 & L1 & L2 & E2 & E3).
  exists S. split; [exact E1|]. split; [exact L1|]. fold U in E2. rewrite E2. f_equal.
  destruct B as (Va & Lu & LQ & U1 & U2 & U3 & Q1 & Q2 & Q3 & [-> Nn] & [-> Nt] & O). destruct (orthogonal_plane A Or) as (a & b & g & Ab & Gg & E00 & E01 & E10 & E11).
  assert (B0 : b = 0). { rewrite A01 in E01. transitivity (- g * (- g * b)); [ring [Gg]|rewrite <- E01; ring]. } rewrite B0 in Ab, E01, E10. clear B0 b. assert (Aa : a * a = 1) by lra.
  assert (Lq : length (mvmul dQ [n0; n1]) = 5%nat) by (rewrite mvmul_length; exact Q1). rewrite (five_q _ Lq) in E3. rewrite (five_turn A a 0 g E00 E01 E10 E11 Gg) in E3.
  rewrite (two_u _ Lu) in E3. rewrite !(turn_two A a 0 g E00 E01 E10 E11) in E3. set (q := mvmul dQ [n0; n1]) in *. set (k := mu / re) in *. rewrite (four_q S L1), (four_q S' L2) in E3 |- *.
  unfold misplaced in E3. cbn [vsub nth] in E3. rewrite (turn_four A a 0 g E00 E01 E10 E11) in E3 |- *.
  pose proof (f_equal (fun l => nth 0 l 0) E3) as X0. pose proof (f_equal (fun l => nth 1 l 0) E3) as X1. pose proof (f_equal (fun l => nth 2 l 0) E3) as X2. pose proof (f_equal (fun l => nth 3 l 0) E3) as X3. cbn [nth] in X0, X1, X2, X3. clear E3.
  assert (Y0 : nth 0 S' 0 = nth 0 S 0) by lra. assert (Y1 : nth 1 S' 0 = a * nth 1 S 0 - g * 0 * nth 2 S 0) by lra.
  assert (T : kept_tensor tg [nth 0 q 0; nth 1 q 0; nth 2 q 0; nth 3 q 0; nth 4 q 0] [n0; n1] [t0; t1] 0 1 = kept_tensor tg q [n0; n1] [t0; t1] 0 1) by reflexivity.
  assert (Z : n0 = 0 \/ n1 = 0) by (apply Rmult_integral; exact Ax).
  assert (K : forall i j, kept_tensor tg [a * a * nth 0 q 0 - 2 * g * a * 0 * nth 1 q 0 + 0 * 0 * nth 2 q 0; a * 0 * nth 0 q 0 + g * (a * a - 0 * 0) * nth 1 q 0 - a * 0 * nth 2 q 0;
     0 * 0 * nth 0 q 0 + 2 * g * a * 0 * nth 1 q 0 + a * a * nth 2 q 0; a * nth 3 q 0 - g * 0 * nth 4 q 0; 0 * nth 3 q 0 + g * a * nth 4 q 0] [a * n0 - g * 0 * n1; 0 * n0 + g * a * n1] [a * t0 - g * 0 * t1; 0 * t0 + g * a * t1] i j
     = kept_tensor tg q [n0; n1] [t0; t1] i j * A i i * A j j \/ (2 <= i)%nat \/ (2 <= j)%nat).
  { intros i j. destruct i as [|[|i]]; [..|right; left; lia]; (destruct j as [|[|j]]; [..|right; right; lia]); left; unfold kept_tensor, along, traction; cbn [nth]; rewrite ?E00, ?E11; destruct tg; ring [Aa Gg]. }
  destruct (K 0%nat 1%nat) as [K1|[K1|K1]]; [|lia|lia]. destruct (K 1%nat 1%nat) as [K2|[K2|K2]]; [|lia|lia]. rewrite K1, K2 in X2, X3. rewrite E00, E11 in X2, X3. clear K K1 K2 T.
  assert (D : forall x01 x11, x01 = kept_tensor tg q [n0; n1] [t0; t1] 0 1 -> x11 = kept_tensor tg q [n0; n1] [t0; t1] 1 1 ->
    2 * k * (0 * n0 + g * a * n1) * (x01 * a * (g * a) - x11 * (g * a) * (g * a)) = g * a * (2 * k * n1 * (x01 - x11))).
  { intros x01 x11 H0 H1. destruct Z as [Z|Z].
    - subst n0. assert (n1 * n1 = 1) by lra. assert (t1 = 0) by nra. subst t1. unfold kept_tensor, along, traction in H0, H1. cbn [nth] in H0, H1. rewrite H0, H1. destruct Cs as [Cs|[Cs|Cs]].
      + rewrite Cs. ring.
      + subst tg. ring [Aa Gg].
      + rewrite E00, E11 in Cs. assert (G1 : g = 1) by (transitivity (g * a * a); [ring [Aa]|rewrite <- Cs; exact Aa]). rewrite G1. destruct tg; ring [Aa].
    - rewrite Z. ring. }
  rewrite (D _ _ eq_refl eq_refl) in X2, X3. set (e := 2 * k * n1 * _) in *.
  assert (Y2 : nth 2 S' 0 = 0 * nth 1 S 0 + g * a * nth 2 S 0) by lra. assert (W : (0 * nth 0 (st_u st) 0 + g * a * nth 1 (st_u st) 0) * (g * a * e) = nth 1 (st_u st) 0 * e) by (ring [Aa Gg]).
  rewrite W in X3. assert (Y3 : nth 3 S' 0 = nth 3 S 0) by lra. now rewrite Y0, Y1, Y2, Y3.
Qed.
Print Assumptions c81_viscous_axes.

(** A quarter of a turn takes an outflow through a vertical line to one through a horizontal line, and the terms do not follow. *)
Theorem c81_viscous_refuted : forall s st Q dU dQ re pr mu V, 1 < s_gamma s -> s_dim s = 2%nat -> boundary_point s st Q dU dQ [1; 0] [0; 1] 1 0 0 1 ->
  reference_reynolds_number s = Ok re -> prandtl_number s = Ok pr -> re <> 0 -> pr <> 0 -> mu <> 0 ->
  get_conservative_fields s (conservative_list (s_gamma s) st) = Ok V -> viscosity s V = Ok mu -> entry dQ 0 0 <> 0 ->
  let A := rotation 0 1 in
  let U := conservative_list (s_gamma s) st in
  orthogonal 2 A /\ turn_vector 2 A [1; 0] = [0; 1] /\ turn_vector 2 A [0; 1] = [-1; 0] /\
  exists S S', cbc_viscous_terms s MStrainHeat TOutflow U Q dU dQ [1; 0] [0; 1] = Ok S /\
    cbc_viscous_terms s MStrainHeat TOutflow (turn 2 A U) (turn_five A Q) (turn_gradient 2 A dU) (turn_mixed_slopes A dQ) [0; 1] [-1; 0] = Ok S' /\
    nth 2 S' 0 = nth 2 (turn 2 A S) 0 - 2 * (mu / re) * entry dQ 0 0 /\ S' <> turn 2 A S.
Proof.
  intros s st Q dU dQ re pr mu V G D2 B Er Ep R0 P0 M0 EV Em N0 A U.
  assert (Or : orthogonal 2 A). { intros j k J K. destruct j as [|[|j]]; [..|lia]; (destruct k as [|[|k]]; [..|lia]); unfold A, delta; cbn; split; ring. }
  assert (Tn : turn_vector 2 A [1; 0] = [0; 1]) by (unfold turn_vector, turn_of, A; cbn; repeat (apply f_equal2; [ring|]); reflexivity).
  assert (Tt : turn_vector 2 A [0; 1] = [-1; 0]) by (unfold turn_vector, turn_of, A; cbn; repeat (apply f_equal2; [ring|]); reflexivity).
  split; [exact Or|]. split; [exact Tn|]. split; [exact Tt|].
  destruct (c81_viscous_terms s A TOutflow st Q dU dQ [1; 0] [0; 1] 1 0 0 1 re pr mu V G D2 Or B Er Ep R0 P0 EV Em) as (S & S' & E1 & L1 & L2 & E2 & E3).
  rewrite Tn, Tt in E2, E3. exists S, S'. split; [exact E1|]. split; [exact E2|].
  destruct B as (Va & Lu & LQ & U1 & U2 & U3 & Q1 & Q2 & Q3 & _).
  assert (Lq : length (mvmul dQ [1; 0]) = 5%nat) by (rewrite mvmul_length; exact Q1).
  assert (H0 : nth 0 (mvmul dQ [1; 0]) 0 = entry dQ 0 0) by (rewrite mvmul_total by lia; rewrite Q2; cbn [total nth]; ring).
  rewrite (five_q _ Lq) in E3. rewrite (five_turn A 0 1 1 eq_refl ltac:(cbn; ring) eq_refl ltac:(cbn; ring) ltac:(ring)) in E3. rewrite H0 in E3. set (q := mvmul dQ [1; 0]) in *.
  assert (X : nth 2 S' 0 = nth 2 (turn 2 A S) 0 - 2 * (mu / re) * entry dQ 0 0).
  { rewrite (four_q S L1) in E3 |- *. rewrite (four_q S' L2) in E3. unfold misplaced in E3. cbn [vsub nth] in E3. rewrite (turn_four A 0 1 1 eq_refl ltac:(cbn; ring) eq_refl ltac:(cbn; ring)) in E3 |- *.
    pose proof (f_equal (fun l => nth 2 l 0) E3) as X2. cbn [nth] in X2 |- *. unfold kept_tensor, along, traction in X2. cbn [nth] in X2. set (c := 2 * (mu / re)) in *. clear - X2. ring_simplify in X2. lra. }
  split; [exact X|]. intros Z. rewrite Z in X. assert (K : 2 * (mu / re) * entry dQ 0 0 <> 0). { pose proof (Rinv_neq_0_compat re R0). unfold Rdiv. repeat apply Rmult_integral_contrapositive_currified; trivial; lra. } lra.
Qed.
Print Assumptions c81_viscous_refuted.

(** A reflection at the vertical axis keeps a horizontal boundary where it is, and the terms of the other targets do not follow. *)
Theorem c81_viscous_mirror_refuted : forall s tg st Q dU dQ re pr mu V, 1 < s_gamma s -> s_dim s = 2%nat -> boundary_point s st Q dU dQ [0; 1] [-1; 0] 0 1 (-1) 0 -> tg <> TOutflow ->
  reference_reynolds_number s = Ok re -> prandtl_number s = Ok pr -> re <> 0 -> pr <> 0 -> mu <> 0 ->
  get_conservative_fields s (conservative_list (s_gamma s) st) = Ok V -> viscosity s V = Ok mu -> entry dQ 1 1 <> 0 ->
  let A := fun i j => delta i j * match i with O => -1 | _ => 1 end in
  let U := conservative_list (s_gamma s) st in
  orthogonal 2 A /\ turn_vector 2 A [0; 1] = [0; 1] /\ turn_vector 2 A [-1; 0] = [1; 0] /\
  exists S S', cbc_viscous_terms s MStrainHeat tg U Q dU dQ [0; 1] [-1; 0] = Ok S /\
    cbc_viscous_terms s MStrainHeat tg (turn 2 A U) (turn_five A Q) (turn_gradient 2 A dU) (turn_mixed_slopes A dQ) [0; 1] [1; 0] = Ok S' /\
    nth 2 S' 0 = nth 2 (turn 2 A S) 0 - 4 * (mu / re) * entry dQ 1 1 /\ S' <> turn 2 A S.
Proof.
  intros s tg st Q dU dQ re pr mu V G D2 B Tg Er Ep R0 P0 M0 EV Em N0 A U.
  assert (Or : orthogonal 2 A). { intros j k J K. destruct j as [|[|j]]; [..|lia]; (destruct k as [|[|k]]; [..|lia]); unfold A, delta; cbn; split; ring. }
  assert (Tn : turn_vector 2 A [0; 1] = [0; 1]) by (unfold turn_vector, turn_of, A, delta; cbn; repeat (apply f_equal2; [ring|]); reflexivity).
  assert (Tt : turn_vector 2 A [-1; 0] = [1; 0]) by (unfold turn_vector, turn_of, A, delta; cbn; repeat (apply f_equal2; [ring|]); reflexivity).
  split; [exact Or|]. split; [exact Tn|]. split; [exact Tt|].
  destruct (c81_viscous_terms s A tg st Q dU dQ [0; 1] [-1; 0] 0 1 (-1) 0 re pr mu V G D2 Or B Er Ep R0 P0 EV Em) as (S & S' & E1 & L1 & L2 & E2 & E3).
  rewrite Tn, Tt in E2, E3. exists S, S'. split; [exact E1|]. split; [exact E2|].
  destruct B as (Va & Lu & LQ & U1 & U2 & U3 & Q1 & Q2 & Q3 & _).
  assert (Lq : length (mvmul dQ [0; 1]) = 5%nat) by (rewrite mvmul_length; exact Q1).
  assert (H0 : nth 1 (mvmul dQ [0; 1]) 0 = entry dQ 1 1) by (rewrite mvmul_total by lia; rewrite Q2; cbn [total nth]; ring).
  assert (A00 : A 0%nat 0%nat = -1) by (unfold A, delta; cbn; ring). assert (A01 : A 0%nat 1%nat = - -1 * 0) by (unfold A, delta; cbn; ring).
  assert (A10 : A 1%nat 0%nat = 0) by (unfold A, delta; cbn; ring). assert (A11 : A 1%nat 1%nat = -1 * -1) by (unfold A, delta; cbn; ring).
  rewrite (five_q _ Lq) in E3. rewrite (five_turn A (-1) 0 (-1) A00 A01 A10 A11 ltac:(ring)) in E3. rewrite H0 in E3. set (q := mvmul dQ [0; 1]) in *.
  assert (X : nth 2 S' 0 = nth 2 (turn 2 A S) 0 - 4 * (mu / re) * entry dQ 1 1).
  { rewrite (four_q S L1) in E3 |- *. rewrite (four_q S' L2) in E3. unfold misplaced in E3. cbn [vsub nth] in E3. rewrite (turn_four A (-1) 0 (-1) A00 A01 A10 A11) in E3 |- *.
    pose proof (f_equal (fun l => nth 2 l 0) E3) as X2. cbn [nth] in X2 |- *. unfold kept_tensor, along, traction in X2. cbn [nth] in X2. set (c := mu / re) in *. clear - X2 Tg. destruct tg; [|try (now destruct Tg); ring_simplify in X2; lra..]; try (now destruct Tg); ring_simplify in X2; lra. }
  split; [exact X|]. intros Z. rewrite Z in X. assert (K : 4 * (mu / re) * entry dQ 1 1 <> 0). { pose proof (Rinv_neq_0_compat re R0). unfold Rdiv. repeat apply Rmult_integral_contrapositive_currified; trivial; lra. } lra.
Qed.
Print Assumptions c81_viscous_mirror_refuted.

(** The boundary points of [c64_example]: stress that grows along the flow through a vertical boundary, and shear stress that grows towards a horizontal one. *)
Example c81_example_viscous :
  boundary_point thick_air drifting [1; 0; 2; 0; 0] some_dU some_dQ [1; 0] [0; 1] 1 0 0 1 /\ entry some_dQ 0 0 <> 0 /\
  boundary_point thick_air drifting [1; 0; 2; 0; 0] some_dU some_dQ [0; 1] [-1; 0] 0 1 (-1) 0 /\ entry some_dQ 1 1 <> 0 /\
  reference_reynolds_number thick_air = Ok 10 /\ prandtl_number thick_air = Ok (1 / 2) /\ viscosity thick_air (full_fields thick_air drifting) = Ok 1.
Proof.
  destruct c64_example as (B & B' & Er & Ep & Em & _). split; [exact B|]. split; [unfold entry; cbn; lra|]. split; [exact B'|]. split; [unfold entry; cbn; lra|]. split; [exact Er|]. split; [exact Ep|exact Em].
Qed.
