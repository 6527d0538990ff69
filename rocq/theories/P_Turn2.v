(** C81: the boundary conditions and the whole problem in a turned coordinate system. *)
From Coq Require Import Reals String List Arith Bool Lia Lra.
From Coquelicot Require Import Coquelicot.
From Verif Require Import Base M_Bla M_Flow M_Formulation M_Weak M_Mixed S_Flow S_Chars S_Formulation S_Stress S_Weak S_Mixed S_Turn L_Flow L_Formulation L_Weak P_Eos P_Chars P_Jacobian P_Split P_Riemann P_Boundary P_Unknowns L_Small L_Curve L_Turn P_Stress P_Trace L_Turn2 P_Mixed P_Cbc P_Turn.
From Verif Require Import S_Formulation.
Import ListNotations.
Open Scope R_scope.
Open Scope list_scope.

(** ** Given flow fields *)

Lemma turn_parts d A rho m e : length m = d -> turn d A (rho :: m ++ [e]) = rho :: turn_vector d A m ++ [e].
Proof.
  intros L. symmetry. apply turn_make; [cbn [length]; rewrite app_length, turn_vector_length; cbn; lia|]. intros i I. unfold carry.
  destruct (Nat.eqb_spec i 0) as [->|N0]; [reflexivity|]. destruct i as [|i]; [lia|]. cbn [nth]. replace (S i - 1)%nat with i by lia.
  destruct (Nat.leb_spec (S i) d) as [K|K].
  - rewrite app_nth1 by (rewrite turn_vector_length; lia). rewrite turn_vector_nth by lia. apply turn_of_ext. intros k Kk. replace (k + 1)%nat with (S k) by lia. cbn [nth].
    rewrite app_nth1 by lia. reflexivity.
  - replace i with d by lia. rewrite !app_nth2 by (rewrite ?turn_vector_length; lia). rewrite turn_vector_length, L. reflexivity.
Qed.

Lemma turn_vector_scale d A a v : vscale a (turn_vector d A v) = turn_vector d A (vscale a v).
Proof.
  apply (nth_ext _ _ 0 0); [now rewrite vscale_length, !turn_vector_length|]. intros i I. rewrite vscale_length, turn_vector_length in I.
  rewrite vscale_nth, !turn_vector_nth by exact I. unfold turn_of. rewrite <- total_scale. apply total_ext. intros k K. rewrite vscale_nth. ring.
Qed.

Lemma turn_vector_sub d A v w : length v = d -> length w = d -> vsub (turn_vector d A v) (turn_vector d A w) = turn_vector d A (vsub v w).
Proof.
  intros Lv Lw. apply (nth_ext _ _ 0 0); [now rewrite vsub_length, !turn_vector_length, Nat.min_id|]. intros i I. rewrite vsub_length, !turn_vector_length, Nat.min_id in I.
  rewrite (vsub_nth (turn_vector d A v)) by now rewrite !turn_vector_length. rewrite !turn_vector_nth by exact I.
  transitivity (1 * turn_of d A (fun k => nth k v 0) i + (-1) * turn_of d A (fun k => nth k w 0) i); [ring|]. rewrite <- turn_of_lin. apply turn_of_ext. intros k K.
  rewrite vsub_nth by congruence. ring.
Qed.

(** Velocity and momentum of a container have one component for each dimension. *)
Definition sized (d : nat) (U : flow) : Prop := (forall v, f_u U = Some v -> length v = d) /\ (forall v, f_rho_u U = Some v -> length v = d).

Lemma momentum_turn d A U m : sized d U -> momentum U = Ok m -> length m = d /\ momentum (turn_flow d A U) = Ok (turn_vector d A m).
Proof.
  intros [Su Sm] H. unfold momentum in *. cbn [f_rho_u f_rho f_u turn_flow]. destruct (f_rho_u U) as [v|] eqn:Em.
  - cbn in H. apply ok_inj in H. subst v. split; [now apply Sm|reflexivity].
  - destruct (f_rho U) as [r|]; [|discriminate H]. destruct (f_u U) as [v|] eqn:Eu; [|discriminate H]. cbn in H. apply ok_inj in H. subst m.
    split; [rewrite vscale_length; now apply Su|]. cbn. now rewrite turn_vector_scale.
Qed.

Lemma kinetic_turn d A U : orthogonal d A -> sized d U -> kinetic_energy (turn_flow d A U) = kinetic_energy U.
Proof.
  intros O [Su Sm]. unfold kinetic_energy. cbn [f_rho_Ek f_rho f_u f_rho_u f_rho_E f_rho_Ei f_Ek turn_flow].
  destruct (f_rho_Ek U); [reflexivity|]. destruct (f_rho U) as [r|]; [|reflexivity].
  destruct (f_u U) as [v|] eqn:Eu; cbn [option_map].
  - rewrite (turn_vector_inner d A O) by now apply Su. reflexivity.
  - destruct (f_rho_u U) as [v|] eqn:Em; cbn [option_map]; [|reflexivity]. rewrite (turn_vector_inner d A O) by now apply Sm. reflexivity.
Qed.

Lemma specific_kinetic_turn d A U : orthogonal d A -> sized d U -> specific_kinetic_energy (turn_flow d A U) = specific_kinetic_energy U.
Proof.
  intros O [Su Sm]. unfold specific_kinetic_energy. cbn [f_rho_Ek f_rho f_u f_rho_u f_E f_Ei f_Ek turn_flow].
  destruct (f_Ek U); [reflexivity|]. destruct (f_u U) as [v|] eqn:Eu; cbn [option_map].
  - rewrite (turn_vector_inner d A O) by now apply Su. reflexivity.
  - destruct (f_rho U) as [r|]; [|reflexivity].
    destruct (f_rho_u U) as [v|] eqn:Em; cbn [option_map]; [|reflexivity]. rewrite (turn_vector_inner d A O) by now apply Sm. reflexivity.
Qed.

Lemma energy_turn s d A U : orthogonal d A -> sized d U -> energy s (turn_flow d A U) = energy s U.
Proof.
  intros O S. unfold energy. rewrite (kinetic_turn d A U O S). reflexivity.
Qed.

Lemma given_turn s d A U w : orthogonal d A -> sized d U -> conservative_vector s U = Ok w ->
  length w = (d + 2)%nat /\ conservative_vector s (turn_flow d A U) = Ok (turn d A w).
Proof.
  intros O S H. unfold conservative_vector in *. apply bind_ok in H as (rho & Er & H). apply bind_ok in H as (m & Em & H). apply bind_ok in H as (e & Ee & H). apply ok_inj in H. subst w.
  destruct (momentum_turn d A U m S Em) as [Lm Em']. split; [cbn [length]; rewrite app_length, Lm; cbn; lia|].
  change (density s (turn_flow d A U)) with (density s U). rewrite Er, Em', (energy_turn s d A U O S), Ee. cbn [bind]. now rewrite turn_parts.
Qed.

(** The fields of a turned state. *)
Lemma full_turn s A st : orthogonal (s_dim s) A -> length (st_u st) = s_dim s -> full_fields s (turn_state A st) = turn_flow (s_dim s) A (full_fields s st).
Proof.
  intros O Dim. unfold full_fields, turn_flow. cbn [f_rho f_u f_rho_u f_p f_T f_rho_E f_E f_rho_Ei f_Ei f_rho_Ek f_Ek f_rho_H f_H f_c option_map].
  rewrite (turn_state_E _ A O (s_gamma s) st Dim). change (q_T (s_gamma s) (turn_state A st)) with (q_T (s_gamma s) st). change (q_c (s_gamma s) (turn_state A st)) with (q_c (s_gamma s) st).
  change (q_rho_Ei (s_gamma s) (turn_state A st)) with (q_rho_Ei (s_gamma s) st). change (st_rho (turn_state A st)) with (st_rho st). change (st_p (turn_state A st)) with (st_p st).
  replace (q_rho_Ek (turn_state A st)) with (q_rho_Ek st).
  2:{ unfold q_rho_Ek, q_Ek. rewrite (turn_state_u _ A st Dim), (turn_vector_inner _ A O) by assumption. reflexivity. }
  replace (q_rho_u (turn_state A st)) with (turn_vector (s_dim s) A (q_rho_u st)).
  2:{ unfold q_rho_u. rewrite (turn_state_u _ A st Dim). symmetry. exact (turn_vector_scale (s_dim s) A (st_rho st) (st_u st)). }
  rewrite (turn_state_u _ A st Dim). reflexivity.
Qed.

Lemma full_sized s st : length (st_u st) = s_dim s -> sized (s_dim s) (full_fields s st).
Proof. intros Dim. split; intros v H; cbn in H; injection H as <-; [exact Dim|]. unfold q_rho_u. now rewrite map_length. Qed.

(** The states that the conditions impose on the facets. *)

Lemma outflow_turn s A st p w : 1 < s_gamma s -> orthogonal (s_dim s) A -> valid st -> length (st_u st) = s_dim s ->
  outflow_state s p (conservative_list (s_gamma s) st) = Ok w ->
  length w = (s_dim s + 2)%nat /\ outflow_state s p (turn (s_dim s) A (conservative_list (s_gamma s) st)) = Ok (turn (s_dim s) A w).
Proof.
  intros G O V Dim H. rewrite <- (turn_state_list _ A O (s_gamma s) st Dim). unfold outflow_state in *.
  rewrite (fields_ok s st G V Dim) in H. rewrite (fields_ok s (turn_state A st) G V (turn_state_dim _ A st Dim)), (full_turn s A st O Dim). cbn [bind] in H |- *.
  destruct (full_sized s st Dim) as [Su Sm]. refine (given_turn s (s_dim s) A _ w O _ H). split; intros v Hv; [discriminate Hv|exact (Sm v Hv)].
Qed.

Lemma slip_turn A st n g : orthogonal (length (st_u st)) A -> length n = length (st_u st) ->
  slip (turn_state A st) (turn_vector (length (st_u st)) A n) g = turn_state A (slip st n g).
Proof.
  intros O Ln. unfold slip, turn_state. cbn [st_rho st_u st_p].
  assert (L : length (vsub (st_u st) (vscale (inner (st_u st) n) n)) = length (st_u st)) by (rewrite vsub_length, vscale_length; lia).
  rewrite L, (turn_vector_inner _ A O) by congruence. f_equal. rewrite turn_vector_scale, turn_vector_sub by (rewrite ?vscale_length; congruence). reflexivity.
Qed.

Lemma wall_value s st n : 1 < s_gamma s -> valid st -> length (st_u st) = s_dim s -> length n = s_dim s -> inner n n = 1 ->
  inviscid_wall_state s (conservative_list (s_gamma s) st) n = Ok (conservative_list (s_gamma s) (slip st n (s_gamma s))).
Proof.
  intros G V Dim Ln N. unfold inviscid_wall_state. rewrite (fields_ok s st G V Dim). cbn [bind].
  pose proof (c50_slip st n (s_gamma s) G V ltac:(lia) N) as (_ & Ls & _ & _ & _ & Es).
  assert (E : st_rho st :: vsub (q_rho_u st) (vscale (inner (q_rho_u st) n) n) ++ [q_rho_E (s_gamma s) st] = conservative_list (s_gamma s) (slip st n (s_gamma s))).
  { unfold conservative_list. rewrite Es. change (st_rho (slip st n (s_gamma s))) with (st_rho st). do 2 f_equal.
    unfold q_rho_u, slip. cbn [st_rho st_u]. rewrite inner_map. set (un := inner (st_u st) n). assert (Lv : length n = length (st_u st)) by lia. clearbody un. clear - Lv.
    revert n Lv. induction (st_u st) as [|a u IH]; intros [|b n] Lv; try discriminate Lv; [reflexivity|]. cbn in Lv |- *. f_equal; [ring|]. apply IH. lia. }
  unfold density, momentum, energy, full_fields. cbn [eos_density f_rho f_rho_u f_rho_E equation bind]. now rewrite E.
Qed.

Lemma isothermal_value s st T : 1 < s_gamma s -> valid st -> length (st_u st) = s_dim s ->
  isothermal_wall_state s T (conservative_list (s_gamma s) st) = Ok (conservative_list (s_gamma s) (isothermal st (s_dim s) T (s_gamma s))).
Proof.
  intros G V Dim. pose proof V as [R0 P0]. unfold isothermal_wall_state. rewrite (fields_ok s st G V Dim). cbn [bind].
  cbn. f_equal. unfold conservative_list, q_rho_u. cbn [isothermal st_rho st_u]. f_equal. f_equal.
  - rewrite <- (Rmult_0_r (st_rho st)) at 1. clear. induction (s_dim s) as [|d IH]; [reflexivity|]. cbn. rewrite <- IH, !Rmult_0_r. reflexivity.
  - f_equal. unfold q_rho_E, q_E, q_Ei, q_rho_Ei, q_Ek. cbn [isothermal st_rho st_u st_p]. rewrite P_Boundary.inner_zero. field. lra.
Qed.

Lemma turn_rest d A : turn_vector d A (repeat 0 d) = repeat 0 d.
Proof.
  apply (nth_ext _ _ 0 0); [now rewrite turn_vector_length, repeat_length|]. intros i I. rewrite turn_vector_length in I. rewrite turn_vector_nth by exact I.
  unfold turn_of. rewrite (total_ext _ (fun _ => 0)). 2:{ intros k K. rewrite nth_repeat. ring. } rewrite total_zero, nth_repeat. reflexivity.
Qed.

(** The conditions of outflows, walls and symmetries turn with the flow, in any dimension. *)
Theorem c81_walls : forall s A st Uhat n p T, 1 < s_gamma s -> orthogonal (s_dim s) A -> valid st -> length (st_u st) = s_dim s ->
  length Uhat = (s_dim s + 2)%nat -> length n = s_dim s -> inner n n = 1 ->
  let U := conservative_list (s_gamma s) st in
  turned_result (s_dim s) A (outflow_residual s p U Uhat) (outflow_residual s p (turn (s_dim s) A U) (turn (s_dim s) A Uhat)) /\
  turned_result (s_dim s) A (inviscid_wall_residual s U Uhat n) (inviscid_wall_residual s (turn (s_dim s) A U) (turn (s_dim s) A Uhat) (turn_vector (s_dim s) A n)) /\
  turned_result (s_dim s) A (isothermal_wall_residual s T U Uhat) (isothermal_wall_residual s T (turn (s_dim s) A U) (turn (s_dim s) A Uhat)).
Proof.
  intros s A st Uhat n p T G O V Dim Lh Ln N U.
  assert (Fin : forall w, length w = (s_dim s + 2)%nat -> length (vsub Uhat w) = (s_dim s + 2)%nat /\ vsub (turn (s_dim s) A Uhat) (turn (s_dim s) A w) = turn (s_dim s) A (vsub Uhat w)).
  { intros w Lw. split; [rewrite vsub_length; lia|]. now apply turn_vsub. }
  repeat match goal with |- _ /\ _ => split end; intros v Hv.
  - unfold outflow_residual in *. apply bind_ok in Hv as (w & Ew & Hv). apply ok_inj in Hv. subst v.
    destruct (outflow_turn s A st p w G O V Dim Ew) as [Lw Ew']. fold U in Ew'. rewrite Ew'. cbn [bind]. destruct (Fin w Lw) as [X Y]. split; [exact X|]. now rewrite Y.
  - unfold inviscid_wall_residual in *. unfold U in *. rewrite <- (turn_state_list _ A O (s_gamma s) st Dim).
    rewrite (wall_value s st n G V Dim Ln N) in Hv. cbn [bind] in Hv. apply ok_inj in Hv. subst v.
    rewrite (wall_value s (turn_state A st) (turn_vector (s_dim s) A n) G V (turn_state_dim _ A st Dim) (turn_vector_length _ _ _)).
    2:{ rewrite (turn_vector_inner _ A O) by assumption. exact N. }
    pose proof (c50_slip st n (s_gamma s) G V ltac:(lia) N) as (_ & Ls & _).
    cbn [bind]. destruct (Fin (conservative_list (s_gamma s) (slip st n (s_gamma s)))) as [X Y]; [rewrite conservative_list_length; lia|]. split; [exact X|].
    rewrite <- Y. do 2 f_equal. rewrite <- (turn_state_list _ A O (s_gamma s)) by congruence. f_equal. rewrite <- Dim in O |- *. apply slip_turn; [exact O|congruence].
  - unfold isothermal_wall_residual in *. unfold U in *. rewrite <- (turn_state_list _ A O (s_gamma s) st Dim).
    rewrite (isothermal_value s st T G V Dim) in Hv. cbn [bind] in Hv. apply ok_inj in Hv. subst v.
    rewrite (isothermal_value s (turn_state A st) T G V (turn_state_dim _ A st Dim)). cbn [bind].
    assert (Li : length (st_u (isothermal st (s_dim s) T (s_gamma s))) = s_dim s) by (cbn; apply repeat_length).
    destruct (Fin (conservative_list (s_gamma s) (isothermal st (s_dim s) T (s_gamma s)))) as [X Y]; [rewrite conservative_list_length; lia|]. split; [exact X|].
    rewrite <- Y. do 2 f_equal. rewrite <- (turn_state_list _ A O (s_gamma s) _ Li). f_equal. unfold turn_state. rewrite Li. cbn [isothermal st_u st_rho st_p]. rewrite turn_rest. reflexivity.
Qed.
Print Assumptions c81_walls.

(** ** Far fields and characteristic boundary conditions in the plane *)

Section Plane.
Variables (s : settings) (A : nat -> nat -> R) (st : state) (n : list R).
Hypothesis G : 1 < s_gamma s.
Hypothesis D2 : s_dim s = 2%nat.
Hypothesis O : orthogonal 2 A.
Hypothesis V : valid st.
Hypothesis Dim : length (st_u st) = 2%nat.
Hypothesis Ln : length n = 2%nat.
Hypothesis N : inner n n = 1.

Lemma plane_speed : inner (st_u (turn_state A st)) (turn_vector 2 A n) = inner (st_u st) n.
Proof. rewrite (turn_state_u 2 A st Dim). now apply turn_vector_inner. Qed.

Lemma farfield_turn b fields w U v : conservative_vector s fields = Ok w -> length w = 4%nat -> length U = 4%nat ->
  forall fields', conservative_vector s fields' = Ok (turn 2 A w) ->
  farfield_residual s fields b U (conservative_list (s_gamma s) st) n = Ok v ->
  length v = 4%nat /\ farfield_residual s fields' b (turn 2 A U) (turn 2 A (conservative_list (s_gamma s) st)) (turn_vector 2 A n) = Ok (turn 2 A v).
Proof.
  intros Ew Lw LU fields' Ew' H.
  destruct (unit_two n Ln N) as (n0 & n1 & N2). destruct (two_entries (st_u st) Dim) as (ux & uy & Eu).
  rewrite (farfield_value s st ux uy n0 n1 n G V Eu D2 N2 b fields w U Ew Lw LU) in H. apply ok_inj in H.
  rewrite <- (turn_state_list 2 A O (s_gamma s) st Dim).
  rewrite (farfield_value s (turn_state A st) _ _ _ _ (turn_vector 2 A n) G V (turn_velocity A st ux uy Eu) D2 (turn_unit A n0 n1 n N2 O) b fields' _ _ Ew' (turn_length 2 A w) (turn_length 2 A U)).
  assert (Un : nth 0 (turn_vector 2 A [ux; uy]) 0 * nth 0 (turn_vector 2 A n) 0 + nth 1 (turn_vector 2 A [ux; uy]) 0 * nth 1 (turn_vector 2 A n) 0 = ux * n0 + uy * n1).
  { destruct N2 as [En _]. rewrite En. pose proof (turn_vector_inner 2 A O [ux; uy] [n0; n1] eq_refl eq_refl) as X. cbn in X |- *. lra. }
  rewrite Un. clear Un. change (q_c (s_gamma s) (turn_state A st)) with (q_c (s_gamma s) st).
  set (H0 := conservative_list (s_gamma s) st) in *. assert (LH : length H0 = 4%nat) by (unfold H0; rewrite conservative_list_length, Dim; reflexivity).
  assert (Tl : conservative_list (s_gamma s) (turn_state A st) = turn 2 A H0) by exact (turn_state_list 2 A O (s_gamma s) st Dim).
  rewrite Tl.
  assert (W : forall l x, length x = 4%nat ->
    mvmul (wave (PP (s_gamma s) (st_rho (turn_state A st)) (nth 0 (turn_vector 2 A [ux; uy]) 0) (nth 1 (turn_vector 2 A [ux; uy]) 0) (q_c (s_gamma s) st) (nth 0 (turn_vector 2 A n) 0) (nth 1 (turn_vector 2 A n) 0))
                (QQ (s_gamma s) (st_rho (turn_state A st)) (nth 0 (turn_vector 2 A [ux; uy]) 0) (nth 1 (turn_vector 2 A [ux; uy]) 0) (q_c (s_gamma s) st) (nth 0 (turn_vector 2 A n) 0) (nth 1 (turn_vector 2 A n) 0)) l) (turn 2 A x)
    = turn 2 A (mvmul (wave (PP (s_gamma s) (st_rho st) ux uy (q_c (s_gamma s) st) n0 n1) (QQ (s_gamma s) (st_rho st) ux uy (q_c (s_gamma s) st) n0 n1) l) x)).
  { intros l x Lx. pose proof (wave_turn s A st ux uy n0 n1 n G V Eu N2 O l x Lx) as X.
    rewrite (wP_here s st ux uy n0 n1 n Eu N2), (wQ_here s st ux uy n0 n1 n Eu N2) in X. rewrite <- X.
    unfold wP, wQ. rewrite (turn_velocity A st ux uy Eu). reflexivity. }
  assert (L4 : forall l x, length (mvmul (wave (PP (s_gamma s) (st_rho st) ux uy (q_c (s_gamma s) st) n0 n1) (QQ (s_gamma s) (st_rho st) ux uy (q_c (s_gamma s) st) n0 n1) l) x) = 4%nat)
    by (intros l x; rewrite mvmul_length; reflexivity).
  assert (Sub : forall x y, length x = 4%nat -> length y = 4%nat -> length (vsub x y) = 4%nat) by (intros x y Lx Ly; rewrite vsub_length, Lx, Ly; reflexivity).
  subst v. split; [destruct b; apply Sub; auto|]. f_equal. destruct b.
  - rewrite !W by assumption. rewrite !(turn_vsub 2 A) by auto. reflexivity.
  - rewrite !(turn_vsub 2 A H0) by assumption. rewrite !W by auto. rewrite (turn_vsub 2 A) by auto. reflexivity.
Qed.

Lemma cbc_state_turn tg fields stU w : sized 2 fields -> valid stU -> length (st_u stU) = 2%nat ->
  cbc_state s tg fields (conservative_list (s_gamma s) stU) = Ok w ->
  length w = 4%nat /\ cbc_state s tg (turn_flow 2 A fields) (turn 2 A (conservative_list (s_gamma s) stU)) = Ok (turn 2 A w).
Proof.
  intros S VU DU H. rewrite <- (turn_state_list 2 A O (s_gamma s) stU DU). rewrite <- D2 in O, DU, S.
  enough (X : length w = (s_dim s + 2)%nat /\ cbc_state s tg (turn_flow (s_dim s) A fields) (conservative_list (s_gamma s) (turn_state A stU)) = Ok (turn (s_dim s) A w)) by (rewrite D2 in X; exact X).
  unfold cbc_state in *.
  rewrite (fields_ok s stU G VU DU) in H. rewrite (fields_ok s (turn_state A stU) G VU (turn_state_dim _ A stU DU)), (full_turn s A stU O DU). cbn [bind] in H |- *.
  pose proof (full_sized s stU DU) as [Su Sm]. destruct S as [Fu Fm]. destruct tg.
  - apply given_turn; [exact O|split; assumption|exact H].
  - cbn [turn_flow f_p]. destruct (f_p fields) as [p|]; [|discriminate H].
    refine (given_turn s (s_dim s) A _ w O _ H). split; intros v Hv; [discriminate Hv|exact (Sm v Hv)].
  - cbn [turn_flow f_rho f_rho_u f_rho_Ek]. destruct (f_rho fields) as [rho|]; [|discriminate H]. destruct (f_rho_u fields) as [m|] eqn:Em; [|discriminate H].
    destruct (f_rho_Ek fields) as [k|]; [|discriminate H]. cbn [option_map].
    refine (given_turn s (s_dim s) A _ w O _ H). split; intros v Hv; [discriminate Hv|]. cbn in Hv. injection Hv as <-. now apply Fm.
  - apply bind_ok in H as (rho & Er & H).
    change (isentropic_density s (turn_flow (s_dim s) A (full_fields s stU)) (turn_flow (s_dim s) A fields)) with (isentropic_density s (full_fields s stU) fields).
    rewrite Er. cbn [bind turn_flow f_u]. destruct (f_u fields) as [u|] eqn:Eu; [|discriminate H]. cbn [option_map]. specialize (Fu u eq_refl).
    apply bind_ok in H as (k & Ek & H).
    assert (Ek' : specific_kinetic_energy (mk_flow (Some rho) (Some (turn_vector (s_dim s) A u)) None None (f_T (turn_flow (s_dim s) A (full_fields s stU))) None None None None None None None None None) = Ok k).
    { rewrite <- Ek. apply (specific_kinetic_turn (s_dim s) A (mk_flow (Some rho) (Some u) None None (f_T (full_fields s stU)) None None None None None None None None None) O).
      split; intros v Hv; [|discriminate Hv]. cbn in Hv. injection Hv as <-. exact Fu. }
    rewrite Ek'. cbn [bind]. refine (given_turn s (s_dim s) A _ w O _ H). split; intros v Hv; [|discriminate Hv]. cbn in Hv. injection Hv as <-. exact Fu.
Qed.

(** The turned amplitudes of the turned vector. *)
Lemma cbc_turn kind tg f C beta fields step dt Un stU slope t viscous v : sized 2 fields -> valid stU -> length (st_u stU) = 2%nat ->
  relaxation_values 2 f = Ok C -> length C = 4%nat -> length t = 2%nat -> inner t t = 1 ->
  length Un = 4%nat -> length slope = 4%nat -> (forall x, viscous = Some x -> length x = 4%nat) ->
  cbc_residual s kind tg f beta fields step dt Un (conservative_list (s_gamma s) stU) (conservative_list (s_gamma s) st) slope n t viscous = Ok v ->
  length v = 4%nat /\ cbc_residual s kind tg f beta (turn_flow 2 A fields) step dt (turn 2 A Un) (turn 2 A (conservative_list (s_gamma s) stU))
    (turn 2 A (conservative_list (s_gamma s) st)) (turn 2 A slope) (turn_vector 2 A n) (turn_vector 2 A t) (option_map (turn 2 A) viscous) = Ok (turn 2 A v).
Proof.
  intros S VU DU Ef LC Lt Nt LUn Ls Lv H.
  destruct (unit_two n Ln N) as (n0 & n1 & N2). destruct (unit_two t Lt Nt) as (t0 & t1 & T2). destruct (two_entries (st_u st) Dim) as (ux & uy & Eu).
  assert (Ew : exists w, cbc_state s tg fields (conservative_list (s_gamma s) stU) = Ok w).
  { unfold cbc_residual in H. apply bind_ok in H as (? & _ & H). apply bind_ok in H as (w & Ew & _). now exists w. }
  destruct Ew as (w & Ew). destruct (cbc_state_turn tg fields stU w S VU DU Ew) as [Lw Ew'].
  assert (LU : length (conservative_list (s_gamma s) stU) = 4%nat) by (rewrite conservative_list_length, DU; reflexivity).
  assert (LH : length (conservative_list (s_gamma s) st) = 4%nat) by (rewrite conservative_list_length, Dim; reflexivity).
  destruct (c58_waves s kind tg f C beta fields step dt Un (conservative_list (s_gamma s) stU) st slope viscous w ux uy n n0 n1 t t0 t1 G V Eu D2 N2 T2 Ef LC Ew Lw LU) as (P & Pi & B & r & Inv & EPi & EB & Er & Lr & Am).
  rewrite H in Er. apply ok_inj in Er. subst r. split; [exact Lr|].
  pose proof (turn_unit A n0 n1 n N2 O) as N2'. pose proof (turn_unit A t0 t1 t T2 O) as T2'. pose proof (turn_velocity A st ux uy Eu) as Eu'.
  destruct (c58_waves s kind tg f C beta (turn_flow 2 A fields) step dt (turn 2 A Un) (turn 2 A (conservative_list (s_gamma s) stU)) (turn_state A st) (turn 2 A slope) (option_map (turn 2 A) viscous) (turn 2 A w)
    _ _ (turn_vector 2 A n) _ _ (turn_vector 2 A t) _ _ G V Eu' D2 N2' T2' Ef LC Ew' (turn_length 2 A w) (turn_length 2 A _)) as (P' & Pi' & B' & r' & Inv' & EPi' & EB' & Er' & Lr' & Am').
  rewrite (turn_state_list 2 A O (s_gamma s) st Dim) in Er', Am'. rewrite Er'. f_equal.
  rewrite (proj2 (proj2 (state_matrices s st ux uy n0 n1 n G V Eu N2))) in EPi. apply ok_inj in EPi.
  rewrite (proj2 (proj2 (state_matrices s (turn_state A st) _ _ _ _ (turn_vector 2 A n) G V Eu' N2'))) in EPi'. apply ok_inj in EPi'.
  assert (QPi : Pi = wQ s st n) by (rewrite <- EPi; symmetry; apply wQ_here; assumption).
  assert (QPi' : Pi' = wQ s (turn_state A st) (turn_vector 2 A n)) by (rewrite <- EPi'; unfold wQ; rewrite Eu'; reflexivity).
  (* the change along the tangent *)
  destruct (jacobian_acts s st ux uy t0 t1 t G V Eu T2 Full ltac:(discriminate)) as (B1 & EB1 & AB). rewrite EB in EB1. apply ok_inj in EB1. subst B1.
  destruct (jacobian_acts s (turn_state A st) _ _ _ _ (turn_vector 2 A t) G V Eu' T2' Full ltac:(discriminate)) as (B1 & EB1 & AB'). rewrite EB' in EB1. apply ok_inj in EB1. subst B1.
  assert (Ut : forall m m0 m1, unit2 m m0 m1 -> nth 0 (turn_vector 2 A [ux; uy]) 0 * nth 0 (turn_vector 2 A m) 0 + nth 1 (turn_vector 2 A [ux; uy]) 0 * nth 1 (turn_vector 2 A m) 0 = ux * m0 + uy * m1).
  { intros m m0 m1 [En _]. rewrite En. pose proof (turn_vector_inner 2 A O [ux; uy] [m0; m1] eq_refl eq_refl) as X. cbn in X |- *. lra. }
  rewrite (Ut t t0 t1 T2) in AB'. rewrite (Ut n n0 n1 N2) in Am'. change (q_c (s_gamma s) (turn_state A st)) with (q_c (s_gamma s) st) in *.
  assert (Sl : mvmul B' (turn 2 A slope) = turn 2 A (mvmul B slope)).
  { rewrite (acts_mvmul _ _ _ _ _ AB), (acts_mvmul _ _ _ _ _ AB').
    pose proof (wave_turn s A st ux uy t0 t1 t G V Eu T2 O (fun k => part Full (wave_speed (ux * t0 + uy * t1) (q_c (s_gamma s) st) k)) slope Ls) as X.
    rewrite (wP_here s st ux uy t0 t1 t Eu T2), (wQ_here s st ux uy t0 t1 t Eu T2) in X. rewrite <- X. unfold wP, wQ. rewrite Eu'. reflexivity. }
  rewrite Sl in Am'. assert (LBs : length (mvmul B slope) = 4%nat) by (rewrite (acts_mvmul _ _ _ _ _ AB), mvmul_length; reflexivity).
  destruct (amplitudes_turn s A st ux uy n0 n1 n V Eu N2 O) as (g & Gg & Ha). rewrite <- QPi, <- QPi' in Ha.
  apply (same_amplitudes' P' Pi' _ _ Inv' Lr' (turn_length 2 A v)). intros k K. rewrite (Ha v k Lr K).
  destruct (Am k K) as (Out & In & Zero). destruct (Am' k K) as (Out' & In' & Zero').
  destruct (Rtotal_order (wave_speed (ux * n0 + uy * n1) (q_c (s_gamma s) st) k) 0) as [Z|[Z|Z]].
  - rewrite (In Z), (In' Z), !Ha by assumption. destruct viscous as [x|]; cbn [option_map]; [rewrite (Ha x) by (trivial; now apply Lv)|]; ring.
  - rewrite (Zero Z), (Zero' Z), Ha by assumption. reflexivity.
  - rewrite (Out Z), (Out' Z), !Ha by assumption. ring.
Qed.
End Plane.

(** A far field with turned fields gives the turned condition; in other than two dimensions the far field raises. *)
Theorem c81_farfield : forall s A st U n fields b, 1 < s_gamma s -> orthogonal (s_dim s) A -> valid st -> length (st_u st) = s_dim s ->
  length U = (s_dim s + 2)%nat -> length n = s_dim s -> inner n n = 1 -> sized (s_dim s) fields ->
  let Uhat := conservative_list (s_gamma s) st in
  turned_result (s_dim s) A (farfield_residual s fields b U Uhat n)
    (farfield_residual s (turn_flow (s_dim s) A fields) b (turn (s_dim s) A U) (turn (s_dim s) A Uhat) (turn_vector (s_dim s) A n)).
Proof.
  intros s A st U n fields b G O V Dim LU Ln N S Uhat v H.
  assert (Ew : exists w, conservative_vector s fields = Ok w).
  { unfold farfield_residual in H. apply bind_ok in H as (? & _ & H). apply bind_ok in H as (w & Ew & _). now exists w. }
  destruct Ew as (w & Ew). destruct (given_turn s (s_dim s) A fields w O S Ew) as [Lw Ew'].
  destruct (Nat.eq_dec (s_dim s) 2) as [D2|D2].
  - rewrite D2 in *. exact (farfield_turn s A st n G D2 O V Dim Ln N b fields w U v Ew Lw LU _ Ew' H).
  - unfold Uhat in H. rewrite (c50_farfield_dimension s st fields w b U n G V Dim Ln D2 Ew) in H. discriminate H.
Qed.
Print Assumptions c81_farfield.

(** The characteristic boundary conditions with turned fields, for both kinds and all targets. *)
Theorem c81_cbc : forall s A st stU kind tg f C beta fields step dt Un slope n t viscous, 1 < s_gamma s -> s_dim s = 2%nat -> orthogonal 2 A ->
  valid st -> length (st_u st) = 2%nat -> valid stU -> length (st_u stU) = 2%nat -> length n = 2%nat -> inner n n = 1 -> length t = 2%nat -> inner t t = 1 ->
  sized 2 fields -> relaxation_values 2 f = Ok C -> length C = 4%nat -> length Un = 4%nat -> length slope = 4%nat -> (forall x, viscous = Some x -> length x = 4%nat) ->
  let U := conservative_list (s_gamma s) stU in
  let Uhat := conservative_list (s_gamma s) st in
  turned_result 2 A (cbc_residual s kind tg f beta fields step dt Un U Uhat slope n t viscous)
    (cbc_residual s kind tg f beta (turn_flow 2 A fields) step dt (turn 2 A Un) (turn 2 A U) (turn 2 A Uhat) (turn 2 A slope)
      (turn_vector 2 A n) (turn_vector 2 A t) (option_map (turn 2 A) viscous)).
Proof.
  intros s A st stU kind tg f C beta fields step dt Un slope n t viscous G D2 O V Dim VU DU Ln N Lt Nt S Ef LC LUn Ls Lv U Uhat v H.
  exact (cbc_turn s A st n G D2 O V Dim Ln N kind tg f C beta fields step dt Un stU slope t viscous v S VU DU Ef LC Lt Nt LUn Ls Lv H).
Qed.
Print Assumptions c81_cbc.
