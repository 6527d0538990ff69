(** Lemmas on flows in the reference values of another scaling. *)
From Coq Require Import Reals String List Arith Bool Lia Lra.
From Coquelicot Require Import Coquelicot.
From Verif Require Import Base M_Bla M_Flow M_Formulation M_Weak M_Mixed S_Flow S_Chars S_Formulation S_Scaling S_Stress S_Weak S_Mixed S_Turn S_Units L_Flow L_Formulation L_Weak P_Eos P_Chars P_Jacobian P_Split P_Riemann P_Boundary P_Unknowns L_Small L_Curve L_Turn P_Stress P_Trace L_Turn2 P_Scaling.
From Verif Require Import S_Formulation.
Import ListNotations.
Open Scope R_scope.
Open Scope list_scope.

Lemma speed_pos sc Ma : 0 < Ma -> 0 < farfield_speed sc Ma.
Proof. intros M. destruct sc; cbn; try lra. apply Rdiv_lt_0_compat; lra. Qed.

Lemma unit_ratio_pos s sc : 0 < s_mach s -> 0 < unit_ratio s sc.
Proof. intros M. apply Rdiv_lt_0_compat; now apply speed_pos. Qed.

(** The sound speeds have the same ratio. *)
Lemma unit_ratio_sound s sc : 0 < s_mach s -> farfield_sound sc (s_mach s) = unit_ratio s sc * farfield_sound (s_scaling s) (s_mach s).
Proof. intros M. unfold unit_ratio. destruct sc, (s_scaling s); cbn; field; lra. Qed.

Lemma unit_ratio_speed s sc : 0 < s_mach s -> farfield_speed sc (s_mach s) = unit_ratio s sc * farfield_speed (s_scaling s) (s_mach s).
Proof. intros M. pose proof (speed_pos (s_scaling s) (s_mach s) M). unfold unit_ratio. field. lra. Qed.

Section Lists.
Variables (d : nat) (a : R).

Lemma convert_length U : length (convert d a U) = (d + 2)%nat.
Proof. unfold convert. now rewrite map_length, seq_length. Qed.

Lemma convert_nth U i : (i < d + 2)%nat -> nth i (convert d a U) 0 = weight d a i * nth i U 0.
Proof. intros I. unfold convert. now rewrite map_seq_nth. Qed.

Lemma convert_make f U : length f = (d + 2)%nat -> (forall i, (i < d + 2)%nat -> nth i f 0 = weight d a i * nth i U 0) -> f = convert d a U.
Proof. intros L H. apply (nth_ext _ _ 0 0); [now rewrite convert_length|]. rewrite L. intros i I. now rewrite H, convert_nth. Qed.

Lemma scaled_make k f U : length f = (d + 2)%nat -> (forall i, (i < d + 2)%nat -> nth i f 0 = k * (weight d a i * nth i U 0)) -> f = vscale k (convert d a U).
Proof. intros L H. apply (nth_ext _ _ 0 0); [now rewrite vscale_length, convert_length|]. rewrite L. intros i I. now rewrite H, vscale_nth, convert_nth. Qed.

Lemma scaled_nth k U i : (i < d + 2)%nat -> nth i (vscale k (convert d a U)) 0 = k * (weight d a i * nth i U 0).
Proof. intros I. now rewrite vscale_nth, convert_nth. Qed.

Lemma vscale_one (U : list R) : vscale 1 U = U.
Proof. unfold vscale. rewrite (map_ext _ (fun x => x)) by (intros; ring). apply map_id. Qed.

Lemma convert_vsub U W : length U = (d + 2)%nat -> length W = (d + 2)%nat -> vsub (convert d a U) (convert d a W) = convert d a (vsub U W).
Proof.
  intros LU LW. apply convert_make; [now rewrite vsub_length, !convert_length, Nat.min_id|]. intros i I.
  rewrite (vsub_nth (convert d a U)) by now rewrite !convert_length. rewrite !convert_nth, vsub_nth by congruence. ring.
Qed.

Lemma convert_vadd U W : length U = (d + 2)%nat -> length W = (d + 2)%nat -> vadd (convert d a U) (convert d a W) = convert d a (vadd U W).
Proof.
  intros LU LW. apply convert_make; [now rewrite vadd_length, !convert_length, Nat.min_id|]. intros i I.
  rewrite (vadd_nth (convert d a U)) by now rewrite !convert_length. rewrite !convert_nth, vadd_nth by congruence. ring.
Qed.

Lemma convert_vscale U k : vscale k (convert d a U) = convert d a (vscale k U).
Proof. apply convert_make; [now rewrite vscale_length, convert_length|]. intros i I. rewrite vscale_nth, convert_nth, vscale_nth by exact I. ring. Qed.

(** The weights on either side of a product. *)
Lemma scaled_inner k f v : length f = (d + 2)%nat -> length v = (d + 2)%nat -> inner (vscale k (convert d a f)) v = inner f (vscale k (convert d a v)).
Proof.
  intros Lf Lv. rewrite !inner_total by (rewrite ?vscale_length, ?convert_length; congruence). rewrite vscale_length, convert_length, Lf.
  apply total_ext. intros i I. rewrite !scaled_nth by exact I. ring.
Qed.

End Lists.

Lemma weight_parts d a : weight d a 0 = 1 /\ (forall i, (i < d)%nat -> weight d a (i + 1) = a) /\ weight d a (d + 1) = a * a.
Proof.
  unfold weight. split; [reflexivity|]. split.
  - intros i I. destruct (Nat.eqb_spec (i + 1) 0); [lia|]. destruct (Nat.leb_spec (i + 1) d); [reflexivity|lia].
  - destruct (Nat.eqb_spec (d + 1) 0); [lia|]. destruct (Nat.leb_spec (d + 1) d); [lia|reflexivity].
Qed.

(** ** States *)

Section State.
Variables (g a : R) (st : state).
Hypothesis G : 1 < g.
Hypothesis A0 : 0 < a.
Hypothesis V : valid st.
Notation st' := (convert_state a st).

Lemma convert_valid : valid st'.
Proof. destruct V as [R0 P0]. split; [exact R0|]. cbn. apply Rmult_lt_0_compat; nra. Qed.

Lemma convert_dim d : length (st_u st) = d -> length (st_u st') = d.
Proof. intros L. cbn. now rewrite vscale_length. Qed.

Lemma convert_c : q_c g st' = a * q_c g st.
Proof.
  destruct V as [R0 P0]. unfold q_c. cbn. replace (g * (a * a * st_p st) / st_rho st) with (a * a * (g * st_p st / st_rho st)) by (field; lra).
  rewrite sqrt_mult, sqrt_square; [reflexivity|lra|nra|]. apply Rdiv_le_0_compat; nra.
Qed.

Lemma convert_T : q_T g st' = a * a * q_T g st.
Proof. destruct V as [R0 P0]. unfold q_T. cbn. field. lra. Qed.

Lemma convert_speed u n : inner (vscale a u) n = a * inner u n.
Proof. revert n. induction u as [|x u IH]; intros [|y n]; cbn; try ring. unfold vscale in IH. rewrite IH. ring. Qed.

Lemma convert_square u : inner (vscale a u) (vscale a u) = a * a * inner u u.
Proof. induction u as [|x u IH]; cbn; [ring|]. unfold vscale in IH. rewrite IH. ring. Qed.

Lemma convert_Ek : q_Ek st' = a * a * q_Ek st.
Proof. unfold q_Ek. cbn [convert_state st_u]. rewrite convert_square. field. Qed.

Lemma convert_rho_E : q_rho_E g st' = a * a * q_rho_E g st.
Proof. destruct V as [R0 P0]. unfold q_rho_E, q_E, q_Ei, q_rho_Ei. rewrite convert_Ek. cbn. field. lra. Qed.

Lemma convert_rho_u : q_rho_u st' = vscale a (q_rho_u st).
Proof. unfold q_rho_u. cbn. unfold vscale. rewrite !map_map. apply map_ext. intros. ring. Qed.

Lemma convert_list d : length (st_u st) = d -> conservative_list g st' = convert d a (conservative_list g st).
Proof.
  intros Dim. apply convert_make; [rewrite conservative_list_length, (convert_dim d Dim); reflexivity|]. intros i I.
  unfold conservative_list. destruct i as [|i]; [cbn; ring|]. cbn [nth].
  destruct (Nat.eq_dec i d) as [->|N].
  - rewrite !app_nth2 by (rewrite ?q_rho_u_length, ?(convert_dim d Dim), ?Dim; lia). rewrite !q_rho_u_length, (convert_dim d Dim), Dim, Nat.sub_diag. cbn [nth].
    replace (S d) with (d + 1)%nat by lia. rewrite (proj2 (proj2 (weight_parts d a))). apply convert_rho_E.
  - rewrite !app_nth1 by (rewrite ?q_rho_u_length, ?(convert_dim d Dim), ?Dim; lia).
    replace (S i) with (i + 1)%nat by lia. rewrite (proj1 (proj2 (weight_parts d a))) by lia. now rewrite convert_rho_u, vscale_nth.
Qed.

Lemma convert_flux d n i : length (st_u st) = d -> (i < d + 2)%nat -> normal_flux g st' n i = a * (weight d a i * normal_flux g st n i).
Proof.
  intros Dim I. unfold normal_flux. rewrite (convert_dim d Dim), Dim, <- !total_scale. apply total_ext. intros j J.
  unfold euler_flux. rewrite convert_rho_E. cbn [convert_state st_u st_rho st_p]. rewrite !vscale_nth. unfold weight.
  destruct (i =? 0)%nat; [ring|]. destruct (i <=? d)%nat; ring.
Qed.

Lemma convert_euler d i j : length (st_u st) = d -> (i < d + 2)%nat -> euler_flux g d st' i j = a * (weight d a i * euler_flux g d st i j).
Proof.
  intros Dim I. unfold euler_flux. rewrite convert_rho_E. cbn [convert_state st_u st_rho st_p]. rewrite !vscale_nth. unfold weight.
  destruct (i =? 0)%nat; [ring|]. destruct (i <=? d)%nat; ring.
Qed.
End State.

Lemma Rmax_scale a x y : 0 < a -> Rmax (a * x) (a * y) = a * Rmax x y.
Proof. intros A. apply RmaxRmult. lra. Qed.

Lemma Rmin_scale a x y : 0 < a -> Rmin (a * x) (a * y) = a * Rmin x y.
Proof. intros A. unfold Rmin. destruct (Rle_dec x y), (Rle_dec (a * x) (a * y)); trivial; exfalso; nra. Qed.

Lemma Rabs_scale a x : 0 < a -> Rabs (a * x) = a * Rabs x.
Proof. intros A. rewrite Rabs_mult, (Rabs_right a) by lra. reflexivity. Qed.

Lemma wave_speed_scale a un c k : wave_speed (a * un) (a * c) k = a * wave_speed un c k.
Proof. unfold wave_speed. destruct k as [|[|[|k]]]; ring. Qed.

Lemma dissipation_scale r a un c k : 0 < a -> 0 < c -> dissipation r (a * un) (a * c) k = a * dissipation r un c k.
Proof.
  intros A C. unfold dissipation. destruct r.
  - rewrite wave_speed_scale, <- (Rmax_scale a) by exact A. now rewrite Rmult_0_r.
  - rewrite Rabs_scale by exact A. ring.
  - rewrite wave_speed_scale. now apply Rabs_scale.
  - rewrite <- (Rmax_scale a) by exact A. rewrite Rmult_0_r. f_equal. ring.
  - rewrite Rabs_scale by exact A. pose proof (Rabs_pos un). replace (a * Rabs un / (a * Rabs un + a * c)) with (Rabs un / (Rabs un + c)) by (field; split; intros Z; nra).
    replace (a * un + a * c) with (a * (un + c)) by ring. rewrite <- (Rmult_0_r a) at 1. rewrite (Rmax_scale a) by exact A. ring.
Qed.

Lemma part_scale t a x : 0 < a -> part t (a * x) = a * part t x.
Proof.
  intros A. destruct t; cbn; [reflexivity|now apply Rabs_scale| | |ring].
  - rewrite <- (Rmult_0_r a) at 1. now apply Rmin_scale.
  - rewrite <- (Rmult_0_r a) at 1. now apply Rmax_scale.
Qed.

Lemma selected_scale t a x : 0 < a -> selected t (a * x) = selected t x.
Proof.
  intros A. destruct t; cbn; trivial; destruct (Rlt_dec (a * x) 0), (Rlt_dec x 0), (Rlt_dec 0 (a * x)), (Rlt_dec 0 x); trivial; exfalso; nra.
Qed.

(** ** Waves of the plane *)

Definition wave_weight (a : R) (k : nat) : R := match k with 2%nat => a | _ => a * a end.

Lemma wave_weight_nonzero a k : 0 < a -> wave_weight a k <> 0.
Proof. intros A. unfold wave_weight. destruct k as [|[|[|k]]]; nra. Qed.

Lemma amplitude_convert a g rho ux uy c n0 n1 v k : rho <> 0 -> (k < 4)%nat -> length v = 4%nat ->
  amplitude (QQ g rho (a * ux) (a * uy) (a * c) n0 n1) (convert 2 a v) k = wave_weight a k * amplitude (QQ g rho ux uy c n0 n1) v k.
Proof.
  intros R0 K L. destruct v as [|v0 [|v1 [|v2 [|v3 [|]]]]]; try discriminate L.
  replace (convert 2 a [v0; v1; v2; v3]) with [v0; a * v1; a * v2; a * a * v3] by (unfold convert, weight; cbn; repeat (apply f_equal2; [ring|]); reflexivity).
  rewrite !amplitude_value by assumption. unfold dot, cross. four k K; cbn [wave_weight amplitude_form]; field; exact R0.
Qed.

Section Waves.
Variables (s : settings) (a : R) (st : state) (ux uy n0 n1 : R) (n : list R).
Hypothesis G : 1 < s_gamma s.
Hypothesis A0 : 0 < a.
Hypothesis V : valid st.
Hypothesis Eu : st_u st = [ux; uy].
Hypothesis N : unit2 n n0 n1.

Lemma convert_velocity : st_u (convert_state a st) = [a * ux; a * uy].
Proof. cbn. rewrite Eu. reflexivity. Qed.

Lemma wave_inverse_convert : inverse 4 (wP s (convert_state a st) n) (wQ s (convert_state a st) n).
Proof. exact (wave_inverse_here s (convert_state a st) _ _ n0 n1 n G (convert_valid a st A0 V) convert_velocity N). Qed.

Lemma amplitudes_convert v k : length v = 4%nat -> (k < 4)%nat -> amplitude (wQ s (convert_state a st) n) (convert 2 a v) k = wave_weight a k * amplitude (wQ s st n) v k.
Proof.
  intros L K. unfold wQ. rewrite convert_velocity, Eu, (convert_c (s_gamma s) a st G A0 V). cbn [nth convert_state st_rho]. apply amplitude_convert; trivial. destruct V; lra.
Qed.

Lemma wave_convert l v : length v = 4%nat ->
  mvmul (wave (wP s (convert_state a st) n) (wQ s (convert_state a st) n) l) (convert 2 a v) = convert 2 a (mvmul (wave (wP s st n) (wQ s st n) l) v).
Proof.
  intros L. apply (same_amplitudes' _ _ _ _ wave_inverse_convert); [rewrite mvmul_length; reflexivity|apply convert_length|]. intros k K.
  rewrite wave_amplitude by (trivial; apply wave_inverse_convert). rewrite !amplitudes_convert by (trivial; rewrite mvmul_length; reflexivity).
  rewrite (wave_amplitude (wP s st n)) by (trivial; exact (wave_inverse_here s st ux uy n0 n1 n G V Eu N)). ring.
Qed.
End Waves.

Lemma wave_scaled P Q a l v : mvmul (wave P Q (fun k => a * l k)) v = vscale a (mvmul (wave P Q l) v).
Proof.
  apply (nth_ext _ _ 0 0); [rewrite vscale_length, !mvmul_length; reflexivity|]. rewrite mvmul_length. intros i I. change (rows (wave P Q (fun k => a * l k))) with 4%nat in I.
  rewrite vscale_nth, !mvmul_total by exact I. change (cols (wave P Q (fun k => a * l k))) with 4%nat. change (cols (wave P Q l)) with 4%nat.
  rewrite <- total_scale. apply total_ext. intros j J. rewrite !wave_entry by assumption. rewrite <- Rmult_assoc, <- total_scale. f_equal. apply total_ext. intros k K. ring.
Qed.
