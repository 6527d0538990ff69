(** C57: the conservative unknowns and the fields of the flow determine each other. *)
From Coq Require Import Reals List Arith Lra Lia Bool.
From Coquelicot Require Import Coquelicot.
From Verif Require Import Base M_Bla M_Flow M_Formulation S_Flow S_Chars S_Formulation L_Flow P_Eos P_Gradients P_Chars P_Jacobian L_Formulation.
Import ListNotations.
Open Scope R_scope.

(** The unknowns of a state yield fields that describe it, nine of them; reading the fields never raises. *)
Theorem c57_fields : forall cfg s, 1 < s_gamma cfg -> valid s -> length (st_u s) = s_dim cfg ->
  exists V, get_conservative_fields cfg (conservative_list (s_gamma cfg) s) = Ok V /\ describes (s_gamma cfg) s V /\
    forall f, In f [Rho; Uu; RhoU; Pp; Tt; RhoE; RhoEi; RhoEk; Cc] -> has V f = true.
Proof.
  intros cfg s G V Dim. exists (full_fields cfg s). split; [apply fields_ok; assumption|]. split; [apply full_describes|].
  intros f I. cbn [In] in I. repeat destruct I as [<-|I]; try reflexivity. contradiction.
Qed.
Print Assumptions c57_fields.

Theorem c57_total : forall cfg U, exists V, get_conservative_fields cfg U = Ok V.
Proof. intros cfg U. eexists. reflexivity. Qed.
Print Assumptions c57_total.

Lemma inner_squares x : inner x x = total (length x) (fun k => nth k x 0 ^ 2).
Proof. rewrite inner_total by reflexivity. apply total_ext. intros k _. ring. Qed.

(** Exactly the vectors with positive density and positive inner energy are the unknowns of a state of the gas. *)
Theorem c57_physical : forall g d U, 1 < g ->
  (physical d U <-> exists s, valid s /\ length (st_u s) = d /\ conservative_list g s = U).
Proof.
  intros g d U G. split.
  - intros (L & R0 & E). set (rho := nth 0 U 0) in *.
    destruct U as [|r U]; [cbn in L; lia|]. cbn [length] in L. assert (L' : length U = (d + 1)%nat) by lia. clear L. cbn in rho. subst rho.
    set (m := firstn d U). set (e := nth d U 0).
    assert (Lm : length m = d) by (unfold m; rewrite firstn_length; lia).
    assert (EU : U = m ++ [e]).
    { unfold m, e. rewrite <- (firstn_skipn d U) at 1. f_equal. assert (Lk : length (skipn d U) = 1%nat) by (rewrite skipn_length; lia).
      destruct (skipn d U) as [|x [|y l]] eqn:Sk; try discriminate Lk. f_equal.
      rewrite <- (firstn_skipn d U), Sk. rewrite app_nth2; rewrite firstn_length; [|lia]. replace (d - Nat.min d (length U))%nat with 0%nat by lia. reflexivity. }
    assert (Em : total d (fun j => nth (j + 1) (r :: U) 0 ^ 2) = inner m m).
    { rewrite inner_squares, Lm. apply total_ext. intros k K. rewrite Nat.add_1_r. cbn [nth]. rewrite EU, app_nth1 by lia. reflexivity. }
    assert (Ee : nth (d + 1) (r :: U) 0 = e) by (rewrite Nat.add_1_r; reflexivity).
    rewrite Em, Ee in E. clear Em Ee.
    exists (mk_state r (vdiv m r) ((g - 1) * (e - inner m m / (2 * r)))).
    assert (Em : map (fun a => r * a) (vdiv m r) = m).
    { unfold vdiv. rewrite map_map. transitivity (map (fun a => a) m); [|apply map_id]. apply map_ext. intros a. field. lra. }
    assert (EE : inner (vdiv m r) (vdiv m r) = inner m m / r ^ 2).
    { rewrite <- Em at 3 4. rewrite inner_scale. field. lra. }
    split; [|split].
    + split; cbn [st_rho st_p]; [exact R0|]. apply Rmult_lt_0_compat; [lra|]. apply Rlt_Rminus.
      apply (Rmult_lt_reg_r (2 * r)); [lra|]. replace (inner m m / (2 * r) * (2 * r)) with (inner m m) by (field; lra). lra.
    + cbn [st_u]. rewrite vdiv_length. exact Lm.
    + unfold conservative_list, q_rho_u. cbn [st_rho st_u]. rewrite Em, EU. do 3 f_equal.
      unfold q_rho_E, q_E, q_Ei, q_rho_Ei, q_Ek. cbn [st_rho st_u st_p]. rewrite EE. field. lra.
  - intros (s & (R0 & P0) & Lu & <-). split; [rewrite conservative_list_length, Lu; reflexivity|]. split; [exact R0|].
    rewrite (conservative_list_nth g s (d + 1)) by lia. unfold conservative at 1. rewrite Lu.
    destruct (Nat.eqb_spec (d + 1) 0); [lia|]. destruct (Nat.leb_spec (d + 1) d); [lia|].
    change (nth 0 (conservative_list g s) 0) with (st_rho s).
    assert (Em : total d (fun j => nth (j + 1) (conservative_list g s) 0 ^ 2) = st_rho s ^ 2 * inner (st_u s) (st_u s)).
    { rewrite inner_squares, Lu, <- total_scale. apply total_ext. intros k K. rewrite conservative_list_nth by lia. unfold conservative.
      destruct (Nat.eqb_spec (k + 1) 0); [lia|]. destruct (Nat.leb_spec (k + 1) (length (st_u s))); [|lia]. rewrite Nat.add_sub. ring. }
    rewrite Em.
    assert (EE : 2 * st_rho s * q_rho_E g s = st_rho s ^ 2 * inner (st_u s) (st_u s) + 2 * st_rho s * (st_p s / (g - 1))).
    { unfold q_rho_E, q_E, q_Ei, q_rho_Ei, q_Ek. field. lra. }
    rewrite EE. assert (0 < st_p s / (g - 1)) by (apply Rdiv_lt_0_compat; lra). nra.
Qed.
Print Assumptions c57_physical.

(** Two states with the same unknowns are the same. *)
Theorem c57_unique : forall g s s', 1 < g -> valid s -> valid s' -> conservative_list g s = conservative_list g s' -> s = s'.
Proof.
  intros g [r u p] [r' u' p'] G (R0 & P0) (R0' & P0') E. cbn [st_rho st_p] in *. unfold conservative_list, q_rho_u in E. cbn [st_rho st_u] in E.
  injection E as -> E. assert (L : length u = length u').
  { apply (f_equal (@length R)) in E. rewrite !app_length, !map_length in E. cbn in E. lia. }
  apply app_inj_tail in E as [Em EE].
  assert (u = u').
  { clear - Em R0 L. revert u' L Em. induction u as [|a u IH]; intros [|b u'] L E; try discriminate L; [reflexivity|].
    cbn in E. injection E as E0 E. f_equal; [apply (Rmult_eq_reg_l r'); lra|]. apply IH; [cbn in L; lia|exact E]. }
  subst u'. f_equal. unfold q_rho_E, q_E, q_Ei, q_rho_Ei, q_Ek in EE. cbn [st_rho st_u st_p] in EE.
  assert (p / (g - 1) = p' / (g - 1)).
  { replace (p / (g - 1)) with (r' * (p / (g - 1) / r' + inner u u / 2) - r' * (inner u u / 2)) by (field; lra). rewrite EE. field. lra. }
  apply (Rmult_eq_reg_r (/ (g - 1))); [exact H|]. apply Rinv_neq_0_compat. lra.
Qed.
Print Assumptions c57_unique.

(** Initial values, far field and target states: whatever fields of a state the user gives, the vector built from them
    is that of the state, or the call raises because the fields do not determine density, momentum or energy. *)
Theorem c57_vector : forall cfg s U, 1 < s_gamma cfg -> valid s -> describes (s_gamma cfg) s U ->
  (forall w, conservative_vector cfg U = Ok w -> w = conservative_list (s_gamma cfg) s) /\
  ((exists w, conservative_vector cfg U = Ok w) <->
   determined density_sources U /\ determined momentum_sources U /\ determined energy_sources U) /\
  (forall e, conservative_vector cfg U = Err e -> e = ValueError).
Proof.
  intros cfg s U G V D.
  destruct (c41_determined cfg false U) as (Dr & _ & _ & _ & _ & _ & _ & De & _ & _ & _ & _ & Dm).
  unfold conservative_vector. split; [|split].
  - intros w H. apply bind_ok in H as (r & Hr & H). apply bind_ok in H as (m & Hm & H). apply bind_ok in H as (e & He & H). apply ok_inj in H. subst w.
    apply (density_ok _ _ _ G V D) in Hr. apply (momentum_ok _ _ _ G V D) in Hm. apply (energy_ok _ _ _ G V D) in He. subst. reflexivity.
  - destruct Dr as [[A [r ->]]|[A ->]], Dm as [[B [m ->]]|[B ->]], De as [[C [e ->]]|[C ->]]; cbn [bind];
      (split; [intros [w H]; first [discriminate H | tauto] | intros; first [eexists; reflexivity | exfalso; tauto]]).
  - intros e. destruct Dr as [[A [r ->]]|[A ->]], Dm as [[B [m ->]]|[B ->]], De as [[C [x ->]]|[C ->]]; cbn [bind]; intros H; inversion H; reflexivity.
Qed.
Print Assumptions c57_vector.

(** ** Gradients *)

Lemma concat_nth (l : list (list R)) n i j : (forall x, In x l -> length x = n) -> (i < length l)%nat -> (j < n)%nat ->
  nth (i * n + j) (concat l) 0 = nth j (nth i l []) 0.
Proof.
  intros F I J. revert i I. induction l as [|x l IH]; intros i I; [cbn in I; lia|]. cbn [concat].
  pose proof (F x (or_introl eq_refl)) as Lx. destruct i as [|i].
  - cbn [nth]. rewrite app_nth1 by lia. reflexivity.
  - rewrite app_nth2 by lia. cbn [nth]. rewrite <- IH; [f_equal; lia|intros y Y; apply F; right; exact Y|cbn in I; lia].
Qed.

Lemma concat_rows (l : list (list R)) n : (forall x, In x l -> length x = n) -> length (concat l) = (length l * n)%nat.
Proof.
  intros F. induction l as [|x l IH]; [reflexivity|]. cbn [concat length]. rewrite app_length, IH by (intros y Y; apply F; right; exact Y).
  rewrite (F x (or_introl eq_refl)). lia.
Qed.

(** The gradient of the unknowns yields right gradients of density, velocity, momentum, pressure, temperature and of all,
    inner and kinetic energy. *)
Theorem c57_gradients : forall cfg s line dU, 1 < s_gamma cfg -> valid s -> length (st_u s) = s_dim cfg -> smooth_lines (s_dim cfg) s line ->
  length dU = (s_dim cfg + 2)%nat ->
  (forall i, (i < s_dim cfg + 2)%nat -> is_gradient (s_dim cfg) line (fun x => conservative (s_gamma cfg) (s_dim cfg) x i) (nth i dU [])) ->
  exists V dV, get_conservative_gradient_fields cfg (conservative_list (s_gamma cfg) s) dU = Ok (V, dV) /\
    describes (s_gamma cfg) s V /\ describes_gradients (s_gamma cfg) (s_dim cfg) line dV /\
    forall f, In f [GRho; GU; GRhoU; GP; GT; GRhoE; GRhoEi; GRhoEk] -> has_gradient dV f = true.
Proof.
  intros cfg s line dU G V Dim SL L Rows. set (d := s_dim cfg) in *. set (g := s_gamma cfg) in *.
  pose proof (full_describes cfg s) as DV. fold g in DV.
  assert (Drho : is_gradient d line st_rho (nth 0 dU [])) by exact (Rows 0%nat ltac:(lia)).
  assert (De : is_gradient d line (q_rho_E g) (nth (d + 1) dU [])).
  { destruct (Rows (d + 1)%nat ltac:(lia)) as [Le De]. split; [exact Le|]. intros i I. apply (is_derive_ext (fun t => conservative g d (line i t) (d + 1))); [|apply De; exact I].
    intros t. unfold conservative. destruct (Nat.eqb_spec (d + 1) 0); [lia|]. destruct (Nat.leb_spec (d + 1) d); [lia|]. reflexivity. }
  set (dm := mk_matrix d d (concat (firstn d (skipn 1 dU)))).
  assert (Lr : length (firstn d (skipn 1 dU)) = d) by (rewrite firstn_length, skipn_length; lia).
  assert (Nr : forall j, (j < d)%nat -> nth j (firstn d (skipn 1 dU)) [] = nth (S j) dU []).
  { intros j J. destruct dU as [|x dU]; [cbn in L; lia|]. cbn [skipn nth]. clear - J L. cbn in L.
    assert (K : length dU = (d + 1)%nat) by lia. clear L. clearbody d. revert d j J K. induction dU as [|y dU IH]; intros d j J K; [destruct d, j; reflexivity|].
    destruct d as [|d]; [lia|]. cbn [firstn]. destruct j as [|j]; [reflexivity|]. cbn [nth]. cbn in K. apply IH; lia. }
  assert (Fr : forall x, In x (firstn d (skipn 1 dU)) -> length x = d).
  { intros x X. apply (In_nth _ _ []) in X as (j & J & E). rewrite Lr in J. rewrite Nr in E by exact J. subst x. exact (proj1 (Rows (S j) ltac:(lia))). }
  assert (Dm : is_jacobian d line q_rho_u dm).
  { split; [reflexivity|]. split; [reflexivity|]. split; [unfold dm; cbn [entries]; rewrite (concat_rows _ d Fr), Lr; reflexivity|].
    intros i j I J. unfold entry, dm. cbn [cols entries]. rewrite (concat_nth _ d) by (trivial; lia). rewrite Nr by exact J.
    destruct (Rows (S j) ltac:(lia)) as [_ Dj]. apply (is_derive_ext (fun t => conservative g d (line i t) (S j))); [|apply Dj; exact I].
    intros t. rewrite q_rho_u_nth. unfold conservative. cbn [Nat.eqb]. destruct (Nat.leb_spec (S j) d); [|lia]. replace (S j - 1)%nat with j by lia. reflexivity. }
  clear Rows Nr Fr Lr.
  unfold get_conservative_gradient_fields. change (conservative_list g s) with (conservative_list (s_gamma cfg) s). rewrite (fields_ok cfg s G V Dim). cbn [bind]. fold d. fold dm.
  assert (start : forall du dp dT di dk,
    given_jacobian d line st_u du -> given_gradient d line st_p dp -> given_gradient d line (q_T g) dT -> given_gradient d line (q_rho_Ei g) di ->
    given_gradient d line q_rho_Ek dk ->
    describes_gradients g d line (mk_grads (Some (nth 0 dU [])) du (Some dm) dp dT (Some (nth (d + 1) dU [])) None di None dk None None None)).
  { intros du dp dT di dk A B C D E. unfold describes_gradients. cbn [g_rho g_u g_rho_u g_p g_T g_rho_E g_E g_rho_Ei g_Ei g_rho_Ek g_Ek g_rho_H].
    repeat match goal with |- _ /\ _ => split end; trivial; intros x X; try discriminate X; apply some_inj in X; subst x; assumption. }
  assert (none_g : forall q, given_gradient d line q None) by (intros q x X; discriminate X).
  assert (none_j : forall q, given_jacobian d line q None) by (intros q x X; discriminate X).
  assert (some_g : forall q x, is_gradient d line q x -> given_gradient d line q (Some x)) by (intros q x X y Y; apply some_inj in Y; subst y; exact X).
  assert (some_j : forall q x, is_jacobian d line q x -> given_jacobian d line q (Some x)) by (intros q x X y Y; apply some_inj in Y; subst y; exact X).
  (* velocity *)
  match goal with |- context [velocity_gradient ?a ?b] => destruct (velocity_gradient a b) as [du|] eqn:Hu; [|discriminate Hu] end. cbn [bind].
  assert (Du : is_jacobian d line st_u du).
  { eapply (c42_gradients cfg d s line _ _ G SL V Dim DV); [|exact Hu]. apply start; auto. }
  match goal with |- context [kinetic_energy_gradient ?a ?b] => destruct (kinetic_energy_gradient a b) as [dk|] eqn:Hk; [|discriminate Hk] end. cbn [bind].
  assert (Dk : is_gradient d line q_rho_Ek dk).
  { eapply (c42_gradients cfg d s line _ _ G SL V Dim DV); [|exact Hk]. apply start; auto. }
  match goal with |- context [inner_energy_gradient ?b] => destruct (inner_energy_gradient b) as [di|] eqn:Hi; [|discriminate Hi] end. cbn [bind].
  assert (Di : is_gradient d line (q_rho_Ei g) di).
  { eapply (c42_gradients cfg d s line _ _ G SL V Dim DV); [|exact Hi]. apply start; auto. }
  match goal with |- context [pressure_gradient ?c ?a ?b] => destruct (pressure_gradient c a b) as [dp|] eqn:Hp; [|discriminate Hp] end. cbn [bind].
  assert (Dp : is_gradient d line st_p dp).
  { eapply (c42_gradients cfg d s line _ _ G SL V Dim DV); [|exact Hp]. apply start; auto. }
  match goal with |- context [temperature_gradient ?c ?a ?b] => destruct (temperature_gradient c a b) as [dT|] eqn:HT; [|discriminate HT] end. cbn [bind].
  assert (DT : is_gradient d line (q_T g) dT).
  { eapply (c42_gradients cfg d s line _ _ G SL V Dim DV); [|exact HT]. apply start; auto. }
  do 2 eexists. split; [reflexivity|]. split; [exact DV|]. split; [apply start; auto|].
  intros f I. cbn [In] in I. repeat destruct I as [<-|I]; try reflexivity. contradiction.
Qed.
Print Assumptions c57_gradients.

(** The wave state of the other examples: density 7/5, velocity (3, 4), pressure 4 and sound speed 2 for the ratio 7/5. *)
Example c57_example :
  physical 2 (conservative_list (7 / 5) wave_state) /\ conservative_list (7 / 5) wave_state = [7 / 5; 21 / 5; 28 / 5; 55 / 2] /\
  ~ physical 2 [1; 2; 0; 1] /\
  exists V, get_conservative_fields air (conservative_list (7 / 5) wave_state) = Ok V /\ f_p V = Some 4 /\ f_T V = Some 10 /\ f_u V = Some [3; 4].
Proof.
  assert (Va : valid wave_state) by (split; cbn; lra).
  split; [|split; [|split]].
  - apply (c57_physical (7 / 5) 2); [lra|]. exists wave_state. split; [exact Va|]. split; reflexivity.
  - unfold conservative_list, q_rho_u, q_rho_E, q_E, q_Ei, q_rho_Ei, q_Ek, wave_state. cbn.
    replace (7 / 5 * 3) with (21 / 5) by lra. replace (7 / 5 * 4) with (28 / 5) by lra.
    replace (7 / 5 * (4 / (7 / 5 - 1) / (7 / 5) + (3 * 3 + (4 * 4 + 0)) / 2)) with (55 / 2) by (field; lra). reflexivity.
  - intros (_ & _ & H). cbn in H. lra.
  - exists (full_fields air wave_state). split; [apply (fields_ok air wave_state); [cbn; lra|exact Va|reflexivity]|]. cbn. repeat split; f_equal.
    unfold q_T. cbn. field.
Qed.
