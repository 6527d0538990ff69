(** Matrices that act on the waves of a flow in the plane, the numerical flux and the residuals of the boundaries in terms of them, and
    their derivatives along a family of unknowns. *)
From Coq Require Import Reals String List Arith Bool Lia Lra Permutation.
From Coquelicot Require Import Coquelicot.
From Verif Require Import Base M_Bla M_Flow M_Formulation M_Weak S_Flow S_Chars S_Formulation S_Weak S_March S_Small L_Flow L_Formulation L_Weak P_Eos P_Chars P_Jacobian P_Split P_Riemann P_Boundary L_Small.
From Verif Require Import S_Formulation.
Import ListNotations.
Open Scope R_scope.
Open Scope list_scope.

(** ** Wave matrices *)

(** The matrices of right and left eigenvectors ([eos_P], [eos_Pinv]). *)
Definition PP (g rho ux uy c d0 d1 : R) : matrix := mat4
  [1 / (2 * c ^ 2); 1 / c ^ 2; 0; 1 / (2 * c ^ 2);
   - d0 / (2 * c) + ux / (2 * c ^ 2); ux / c ^ 2; d1 * rho; d0 / (2 * c) + ux / (2 * c ^ 2);
   - d1 / (2 * c) + uy / (2 * c ^ 2); uy / c ^ 2; - d0 * rho; d1 / (2 * c) + uy / (2 * c ^ 2);
   (1 / 2) / (g - 1) - d0 * ux / (2 * c) - d1 * uy / (2 * c) + inner [ux; uy] [ux; uy] / (4 * c ^ 2); inner [ux; uy] [ux; uy] / (2 * c ^ 2);
   - d0 * rho * uy + d1 * rho * ux; (1 / 2) / (g - 1) + d0 * ux / (2 * c) + d1 * uy / (2 * c) + inner [ux; uy] [ux; uy] / (4 * c ^ 2)].
Definition QQ (g rho ux uy c d0 d1 : R) : matrix := mat4
  [c * d0 * ux + c * d1 * uy + (g - 1) * inner [ux; uy] [ux; uy] / 2; - c * d0 + ux * (1 - g); - c * d1 + uy * (1 - g); g - 1;
   c ^ 2 - (g - 1) * inner [ux; uy] [ux; uy] / 2; - ux * (1 - g); - uy * (1 - g); 1 - g;
   d0 * uy / rho - d1 * ux / rho; d1 / rho; - d0 / rho; 0;
   - c * d0 * ux - c * d1 * uy + (g - 1) * inner [ux; uy] [ux; uy] / 2; c * d0 + ux * (1 - g); c * d1 + uy * (1 - g); g - 1].

(** The matrix that multiplies the amplitude of wave [k] with [l k]. *)
Definition wave (P Q : matrix) (l : nat -> R) : matrix := tabulate 4 4 (fun i j => total 4 (fun k => entry P i k * l k * entry Q k j)).

Definition acts (P Q : matrix) (l : nat -> R) (M : matrix) : Prop :=
  shape 4 M /\ forall i j, (i < 4)%nat -> (j < 4)%nat -> entry M i j = total 4 (fun k => entry P i k * l k * entry Q k j).

Lemma wave_shape P Q l : shape 4 (wave P Q l).
Proof. repeat split. Qed.

Lemma wave_entry P Q l i j : (i < 4)%nat -> (j < 4)%nat -> entry (wave P Q l) i j = total 4 (fun k => entry P i k * l k * entry Q k j).
Proof. intros I J. unfold wave. now rewrite entry_tabulate. Qed.

Lemma acts_mvmul P Q l M v : acts P Q l M -> mvmul M v = mvmul (wave P Q l) v.
Proof.
  intros ((R1 & C1 & _) & E). apply (nth_ext _ _ 0 0); [now rewrite !mvmul_length, R1|]. rewrite mvmul_length, R1. intros i I.
  rewrite !mvmul_total by (rewrite ?R1; exact I). rewrite C1. change (cols (wave P Q l)) with 4%nat. apply total_ext. intros j J. rewrite E, wave_entry by assumption. reflexivity.
Qed.

Lemma mmul_shape a b : shape 4 a -> shape 4 b -> shape 4 (mmul a b).
Proof. intros (R1 & C1 & L1) (R2 & C2 & L2). unfold mmul. repeat split; cbn [rows cols tabulate]; trivial. rewrite tabulate_length, R1, C2. reflexivity. Qed.

Lemma diagonal4_shape l : length l = 4%nat -> shape 4 (diagonal l).
Proof. intros L. repeat split; cbn [diagonal rows cols]; trivial. rewrite diagonal_length, L. reflexivity. Qed.

Lemma acts_waves P Q l : shape 4 P -> shape 4 Q -> acts P Q l (mmul (mmul P (diagonal (map l waves))) Q).
Proof.
  intros SP SQ. split; [apply mmul_shape; [apply mmul_shape; [exact SP|apply diagonal4_shape; reflexivity]|exact SQ]|]. intros i j I J. now rewrite waves_entry.
Qed.

Lemma acts_eigenvectors P Q l M : inverse 4 P Q -> eigenvectors 4 M P l -> acts P Q l M.
Proof.
  intros Inv E. split; [apply E|]. intros i j I J. rewrite (eigenvectors_determine M (mmul (mmul P (diagonal (map l waves))) Q) P Q l Inv E (waves_eigenvectors P Q l Inv) i j I J).
  apply waves_entry; try assumption; apply Inv.
Qed.

Lemma wave_amplitude P Q l v k : inverse 4 P Q -> (k < 4)%nat -> amplitude Q (mvmul (wave P Q l) v) k = l k * amplitude Q v k.
Proof.
  intros Inv K. rewrite <- (acts_mvmul P Q l (mmul (mmul P (diagonal (map l waves))) Q)); [|apply acts_waves; apply Inv]. now apply amplitude_wave.
Qed.

Lemma wave_same P Q l l' v : (forall k, (k < 4)%nat -> l k = l' k) -> mvmul (wave P Q l) v = mvmul (wave P Q l') v.
Proof.
  intros E. apply acts_mvmul. split; [apply wave_shape|]. intros i j I J. rewrite wave_entry by assumption. apply total_ext. intros k K. now rewrite E.
Qed.

(** ** The matrices of a state *)

Section State.
Variables (s : settings) (st : state) (ux uy n0 n1 : R) (n : list R).
Hypothesis G : 1 < s_gamma s.
Hypothesis V : valid st.
Hypothesis Eu : st_u st = [ux; uy].
Hypothesis D2 : s_dim s = 2%nat.
Hypothesis N : unit2 n n0 n1.
Let g := s_gamma s.
Let c := q_c g st.
Let un := ux * n0 + uy * n1.
Let P := PP g (st_rho st) ux uy c n0 n1.
Let Q := QQ g (st_rho st) ux uy c n0 n1.

Lemma state_matrices : inverse 4 P Q /\ conservative_from_characteristic s (full_fields s st) n = Ok P /\ characteristic_from_conservative s (full_fields s st) n = Ok Q.
Proof.
  pose proof (q_c_pos g st G V) as C0. fold c in C0. destruct V as [R0 P0].
  assert (Eu' : f_u (full_fields s st) = Some [ux; uy]) by (cbn; now rewrite Eu).
  destruct (c43_conservative_characteristic s (full_fields s st) (st_rho st) ux uy c n n0 n1 eq_refl Eu' eq_refl N ltac:(lra) ltac:(lra) ltac:(lra)) as (P' & Pi & M & Mi & L & Li & EP & EPi & _ & _ & _ & _ & Inv & _).
  assert (A : conservative_from_characteristic s (full_fields s st) n = Ok P).
  { destruct N as [-> _]. unfold conservative_from_characteristic, eos_P. rewrite Eu'. reflexivity. }
  assert (B : characteristic_from_conservative s (full_fields s st) n = Ok Q).
  { destruct N as [-> _]. unfold characteristic_from_conservative, eos_Pinv. rewrite Eu'. reflexivity. }
  rewrite A in EP. rewrite B in EPi. apply ok_inj in EP, EPi. subst P' Pi. now split.
Qed.

Lemma state_transform m : transform_characteristic_to_conservative s m (full_fields s st) n = Ok (mmul (mmul P m) Q).
Proof. destruct state_matrices as (_ & A & B). unfold transform_characteristic_to_conservative. rewrite A, B. reflexivity. Qed.

Lemma stabilisation_acts : exists tau, get_convective_stabilisation_matrix s false (full_fields s st) n = Ok tau /\ acts P Q (dissipation (s_riemann s) un c) tau.
Proof.
  pose proof (q_c_pos g st G V) as C0. fold c in C0. destruct V as [R0 P0].
  assert (Eu' : f_u (full_fields s st) = Some [ux; uy]) by (cbn; now rewrite Eu).
  destruct (c47_stabilisation s (full_fields s st) (st_rho st) ux uy c n n0 n1 eq_refl Eu' eq_refl N ltac:(lra) ltac:(lra) ltac:(lra)) as (P' & Pi & EP & _ & Dm).
  destruct state_matrices as (Inv & A & _). rewrite A in EP. apply ok_inj in EP. subst P'.
  destruct (Dm (s_riemann s)) as (tau & E & Ev). exists tau. replace (with_riemann s (s_riemann s)) with s in E by (destruct s; reflexivity). split; [exact E|].
  now apply acts_eigenvectors.
Qed.

Lemma identity_acts t : t = Incoming \/ t = Outgoing -> exists M, get_conservative_convective_identity s (full_fields s st) n t = Ok M /\ acts P Q (fun k => selected t (wave_speed un c k)) M.
Proof.
  intros T. assert (Eu' : f_u (full_fields s st) = Some [ux; uy]) by (cbn; now rewrite Eu).
  unfold get_conservative_convective_identity. rewrite (identity_ok (full_fields s st) ux uy c n0 n1 n Eu' eq_refl N t T). cbn [bind]. rewrite state_transform. eexists. split; [reflexivity|].
  apply (acts_waves P Q (fun k => selected t (wave_speed un c k))); apply (mat4_shape); reflexivity.
Qed.

Lemma jacobian_acts t : t <> OtherSplit -> exists M, get_conservative_convective_jacobian s (full_fields s st) n t = Ok M /\ acts P Q (fun k => part t (wave_speed un c k)) M.
Proof.
  intros T. assert (Eu' : f_u (full_fields s st) = Some [ux; uy]) by (cbn; now rewrite Eu).
  unfold get_conservative_convective_jacobian. rewrite (velocities (full_fields s st) ux uy c n0 n1 n Eu' eq_refl N t T). cbn [bind]. rewrite state_transform. eexists. split; [reflexivity|].
  apply (acts_waves P Q (fun k => part t (wave_speed un c k))); apply (mat4_shape); reflexivity.
Qed.

Lemma fields4 : get_conservative_fields s (conservative_list g st) = Ok (full_fields s st).
Proof. apply fields_ok; trivial. rewrite Eu, D2. reflexivity. Qed.

Definition four_list (f : nat -> R) : list R := [f 0%nat; f 1%nat; f 2%nat; f 3%nat].
Lemma four_list_nth f k : (k < 4)%nat -> nth k (four_list f) 0 = f k.
Proof. intros K. four k K; reflexivity. Qed.
Lemma four_list_make l : length l = 4%nat -> l = four_list (fun k => nth k l 0).
Proof. destruct l as [|a [|b [|c' [|d [|]]]]]; try discriminate. reflexivity. Qed.

(** The numerical flux. *)
Lemma flux_value U : get_convective_numerical_flux s U (conservative_list g st) n =
  Ok (four_list (fun i => normal_flux g st n i + nth i (mvmul (wave P Q (dissipation (s_riemann s) un c)) (vsub U (conservative_list g st))) 0)).
Proof.
  destruct stabilisation_acts as (tau & E & A). unfold get_convective_numerical_flux. rewrite fields4. cbn [bind]. rewrite E. cbn [bind].
  destruct (get_convective_flux s false (full_fields s st)) as [F|] eqn:HF; [|discriminate HF].
  cbn [bind]. f_equal. destruct (physical_flux s st F n G V HF) as [L EF]. rewrite Eu in L, EF. cbn [length Nat.add] in L, EF.
  rewrite (acts_mvmul _ _ _ _ _ A). rewrite (four_list_make (vadd _ _)).
  - unfold four_list. rewrite !vadd_nth by (rewrite L, mvmul_length; reflexivity). rewrite !EF by lia. reflexivity.
  - rewrite vadd_length, L, mvmul_length. reflexivity.
Qed.

(** The flux matrix. *)
Lemma flux_entries : exists F, get_convective_flux s false (full_fields s st) = Ok F /\ rows F = 4%nat /\ cols F = 2%nat /\ length (entries F) = 8%nat /\
  forall i j, (i < 4)%nat -> (j < 2)%nat -> entry F i j = euler_flux g 2 st i j.
Proof.
  destruct (get_convective_flux s false (full_fields s st)) as [F|] eqn:HF; [|discriminate HF]. exists F. split; [reflexivity|].
  pose proof (c45_flux s false st _ F G V (full_describes s st) ltac:(discriminate) HF) as E. cbn zeta in E. rewrite Eu in E. exact E.
Qed.

(** The far field. *)
Lemma farfield_value b fields w U : conservative_vector s fields = Ok w -> length w = 4%nat -> length U = 4%nat ->
  farfield_residual s fields b U (conservative_list g st) n =
  Ok (if b then vsub (vsub (conservative_list g st) (mvmul (wave P Q (fun k => selected Outgoing (wave_speed un c k))) U)) (mvmul (wave P Q (fun k => selected Incoming (wave_speed un c k))) w)
      else vsub (mvmul (wave P Q (fun k => part Outgoing (wave_speed un c k))) (vsub (conservative_list g st) U)) (mvmul (wave P Q (fun k => part Incoming (wave_speed un c k))) (vsub (conservative_list g st) w))).
Proof.
  intros Ew Lw LU. unfold farfield_residual. rewrite fields4, Ew. cbn [bind].
  destruct (identity_acts Incoming ltac:(tauto)) as (M1 & -> & A1). destruct (identity_acts Outgoing ltac:(tauto)) as (M2 & -> & A2).
  destruct (jacobian_acts Incoming ltac:(discriminate)) as (M3 & -> & A3). destruct (jacobian_acts Outgoing ltac:(discriminate)) as (M4 & -> & A4).
  cbn [bind]. destruct b; cbn [bind]; rewrite ?(acts_mvmul _ _ _ _ _ A1), ?(acts_mvmul _ _ _ _ _ A2), ?(acts_mvmul _ _ _ _ _ A3), ?(acts_mvmul _ _ _ _ _ A4); reflexivity.
Qed.
End State.
