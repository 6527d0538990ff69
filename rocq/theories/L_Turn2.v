(** Lemmas on the numerical flux and the waves of a turned flow. *)
From Coq Require Import Reals String List Arith Bool Lia Lra.
From Coquelicot Require Import Coquelicot.
From Verif Require Import Base M_Bla M_Flow M_Formulation M_Weak M_Mixed S_Flow S_Chars S_Formulation S_Stress S_Weak S_Mixed S_Turn L_Flow L_Formulation L_Weak P_Eos P_Chars P_Jacobian P_Split P_Riemann P_Boundary P_Unknowns L_Small L_Curve L_Turn P_Stress P_Trace.
From Verif Require Import S_Formulation.
Import ListNotations.
Open Scope R_scope.
Open Scope list_scope.

(** ** Solvers with one number for all waves *)

Lemma scalar_value s st U n : 1 < s_gamma s -> valid st -> length (st_u st) = s_dim s -> length n = s_dim s -> length U = (s_dim s + 2)%nat ->
  s_riemann s = LaxFriedrich \/ s_riemann s = HLL ->
  exists f, get_convective_numerical_flux s U (conservative_list (s_gamma s) st) n = Ok f /\ length f = (s_dim s + 2)%nat /\
    forall i, (i < s_dim s + 2)%nat -> nth i f 0 = normal_flux (s_gamma s) st n i
      + dissipation (s_riemann s) (inner (st_u st) n) (q_c (s_gamma s) st) 0 * (nth i U 0 - nth i (conservative_list (s_gamma s) st) 0).
Proof.
  intros G V Dim Ln LU Rs. destruct (flux_exists s st U n G V Dim Ln (or_intror Rs)) as (f & E). exists f. split; [exact E|].
  unfold get_convective_numerical_flux in E. rewrite (fields_ok s st G V Dim) in E. cbn [bind] in E. apply bind_ok in E as (tau & Ht & E). apply bind_ok in E as (F & HF & E). apply ok_inj in E.
  assert (NE : f_Ei (full_fields s st) = None \/ f_T (full_fields s st) <> None \/ (f_rho (full_fields s st) <> None /\ f_p (full_fields s st) <> None)) by (left; reflexivity).
  destruct (c47_scalar s false st _ n G V (full_describes s st) ltac:(discriminate) NE Rs tau Ht) as [(R1 & C1 & _) E1].
  destruct (physical_flux s st F n G V HF) as [L EF]. rewrite Dim in L, EF. rewrite Ln in R1, C1, E1.
  assert (LUh : length (conservative_list (s_gamma s) st) = (s_dim s + 2)%nat) by (rewrite conservative_list_length; lia).
  rewrite <- E. split; [rewrite vadd_length, L, mvmul_length, R1; apply Nat.min_id|]. intros i I. rewrite vadd_nth by (rewrite L, mvmul_length, R1; reflexivity).
  rewrite (EF i I). f_equal. rewrite mvmul_total by lia. rewrite C1.
  etransitivity; [apply total_ext; intros k K; rewrite E1 by lia; rewrite Rmult_assoc; reflexivity|].
  rewrite total_scale, (total_delta (fun k => nth k (vsub U (conservative_list (s_gamma s) st)) 0)) by lia. rewrite vsub_nth by lia. f_equal.
  destruct Rs as [-> | ->]; reflexivity.
Qed.

(** ** The plane *)

Lemma orthogonal_plane A : orthogonal 2 A -> exists a b g, a * a + b * b = 1 /\ g * g = 1 /\ A 0%nat 0%nat = a /\ A 0%nat 1%nat = - g * b /\ A 1%nat 0%nat = b /\ A 1%nat 1%nat = g * a.
Proof.
  intros O. destruct (O 0 0 ltac:(lia) ltac:(lia))%nat as [C00 R00]. destruct (O 1 1 ltac:(lia) ltac:(lia))%nat as [C11 R11]. destruct (O 0 1 ltac:(lia) ltac:(lia))%nat as [C01 R01].
  cbn in C00, R00, C11, R11, C01, R01. unfold delta in *. cbn in C00, R00, C11, R11, C01, R01.
  set (a := A 0%nat 0%nat) in *. set (b := A 1%nat 0%nat) in *. set (p := A 0%nat 1%nat) in *. set (q := A 1%nat 1%nat) in *.
  exists a, b, (a * q - p * b). split; [lra|].
  assert (E1 : p = - (a * q - p * b) * b). { transitivity (p * (b * b) + b * (- (a * q))); [|ring]. replace (b * b) with (1 - a * a) by lra. transitivity (p - a * (0 + a * p + b * q)); [rewrite C01; ring|ring]. }
  assert (E2 : q = (a * q - p * b) * a). { transitivity (q * (a * a) - a * p * b); [|ring]. replace (a * a) with (1 - b * b) by lra. transitivity (q - b * (0 + a * p + b * q)); [rewrite C01; ring|ring]. }
  split; [|repeat split; assumption]. set (g := a * q - p * b) in *.
  transitivity (g * g * (a * a + b * b)); [replace (a * a + b * b) with 1 by lra; ring|]. transitivity (0 + p * p + q * q); [|exact C11].
  rewrite E1, E2. ring.
Qed.

(** A reflection changes the sense of the vorticity wave. *)
Definition sense (g : R) (k : nat) : R := match k with 2%nat => g | _ => 1 end.

Lemma sense_square g k : g * g = 1 -> sense g k * sense g k = 1.
Proof. intros H. unfold sense. destruct k as [|[|[|k]]]; lra. Qed.

Definition dot (x0 x1 y0 y1 : R) : R := x0 * y0 + x1 * y1.
Definition cross (x0 x1 y0 y1 : R) : R := x0 * y1 - x1 * y0.

Definition amplitude_form (g rho c uu nu nm um xu xm v0 v3 : R) (k : nat) : R :=
  match k with
  | 0%nat => (c * nu + (g - 1) * uu / 2) * v0 - c * nm + (1 - g) * um + (g - 1) * v3
  | 1%nat => (c ^ 2 - (g - 1) * uu / 2) * v0 - (1 - g) * um + (1 - g) * v3
  | 2%nat => xu / rho * v0 - xm / rho
  | _ => (- c * nu + (g - 1) * uu / 2) * v0 + c * nm + (1 - g) * um + (g - 1) * v3
  end.

Lemma amplitude_value g rho ux uy c n0 n1 v0 v1 v2 v3 k : rho <> 0 -> (k < 4)%nat ->
  amplitude (QQ g rho ux uy c n0 n1) [v0; v1; v2; v3] k =
  amplitude_form g rho c (dot ux uy ux uy) (dot n0 n1 ux uy) (dot n0 n1 v1 v2) (dot ux uy v1 v2) (cross n0 n1 ux uy) (cross n0 n1 v1 v2) v0 v3 k.
Proof.
  intros R0 K. unfold amplitude, dot, cross. four k K; unfold entry; cbn; field; exact R0.
Qed.

Section Plane.
Variables (A : nat -> nat -> R) (a b g : R).
Hypothesis E00 : A 0%nat 0%nat = a.
Hypothesis E01 : A 0%nat 1%nat = - g * b.
Hypothesis E10 : A 1%nat 0%nat = b.
Hypothesis E11 : A 1%nat 1%nat = g * a.
Hypothesis Ab : a * a + b * b = 1.
Hypothesis Gg : g * g = 1.

Lemma turn_two x y : turn_vector 2 A [x; y] = [a * x - g * b * y; b * x + g * a * y].
Proof. unfold turn_vector, turn_of. cbn. rewrite E00, E01, E10, E11. repeat (apply f_equal2; [ring|]). reflexivity. Qed.

Lemma turn_four v0 v1 v2 v3 : turn 2 A [v0; v1; v2; v3] = [v0; a * v1 - g * b * v2; b * v1 + g * a * v2; v3].
Proof. unfold turn, carry, turn_of. cbn. rewrite E00, E01, E10, E11. repeat (apply f_equal2; [ring|]). reflexivity. Qed.

Lemma dot_turn x0 x1 y0 y1 : dot (a * x0 - g * b * x1) (b * x0 + g * a * x1) (a * y0 - g * b * y1) (b * y0 + g * a * y1) = dot x0 x1 y0 y1.
Proof. unfold dot. transitivity ((a * a + b * b) * (x0 * y0 + g * g * (x1 * y1))); [ring|]. rewrite Ab, Gg. ring. Qed.

Lemma cross_turn x0 x1 y0 y1 : cross (a * x0 - g * b * x1) (b * x0 + g * a * x1) (a * y0 - g * b * y1) (b * y0 + g * a * y1) = g * cross x0 x1 y0 y1.
Proof. unfold cross. transitivity ((a * a + b * b) * (g * (x0 * y1 - x1 * y0))); [ring|]. rewrite Ab. ring. Qed.

Lemma amplitude_turn gm rho ux uy c n0 n1 v k : rho <> 0 -> (k < 4)%nat -> length v = 4%nat ->
  amplitude (QQ gm rho (a * ux - g * b * uy) (b * ux + g * a * uy) c (a * n0 - g * b * n1) (b * n0 + g * a * n1)) (turn 2 A v) k =
  sense g k * amplitude (QQ gm rho ux uy c n0 n1) v k.
Proof.
  intros R0 K L. destruct v as [|v0 [|v1 [|v2 [|v3 [|]]]]]; try discriminate L. rewrite turn_four, !amplitude_value by assumption.
  rewrite !dot_turn, !cross_turn. four k K; cbn [sense amplitude_form]; unfold Rdiv; ring.
Qed.
End Plane.

Lemma same_amplitudes' P Q v w : inverse 4 P Q -> length v = 4%nat -> length w = 4%nat -> (forall k, (k < 4)%nat -> amplitude Q v k = amplitude Q w k) -> v = w.
Proof.
  intros Inv Lv Lw H. apply vsub_vanishes; [congruence|]. apply (amplitudes_vanish P Q _ Inv); [rewrite vsub_length, Lv, Lw; reflexivity|].
  intros k K. rewrite amplitude_vsub by congruence. rewrite (H k K). ring.
Qed.

(** What acts on the waves turns with the flow. *)
Section Waves.
Variables (s : settings) (A : nat -> nat -> R) (st : state) (ux uy n0 n1 : R) (n : list R).
Hypothesis G : 1 < s_gamma s.
Hypothesis V : valid st.
Hypothesis Eu : st_u st = [ux; uy].
Hypothesis N : unit2 n n0 n1.
Hypothesis O : orthogonal 2 A.

Definition wP (st : state) (n : list R) : matrix := PP (s_gamma s) (st_rho st) (nth 0 (st_u st) 0) (nth 1 (st_u st) 0) (q_c (s_gamma s) st) (nth 0 n 0) (nth 1 n 0).
Definition wQ (st : state) (n : list R) : matrix := QQ (s_gamma s) (st_rho st) (nth 0 (st_u st) 0) (nth 1 (st_u st) 0) (q_c (s_gamma s) st) (nth 0 n 0) (nth 1 n 0).

Lemma turn_unit : unit2 (turn_vector 2 A n) (nth 0 (turn_vector 2 A n) 0) (nth 1 (turn_vector 2 A n) 0).
Proof.
  split; [reflexivity|]. pose proof (turn_vector_inner 2 A O n n) as X. destruct N as [-> N1]. specialize (X eq_refl eq_refl). cbn in X. cbn. lra.
Qed.

Lemma turn_velocity : st_u (turn_state A st) = [nth 0 (turn_vector 2 A [ux; uy]) 0; nth 1 (turn_vector 2 A [ux; uy]) 0].
Proof. cbn. rewrite Eu. reflexivity. Qed.

Lemma wave_inverse_turn : inverse 4 (wP (turn_state A st) (turn_vector 2 A n)) (wQ (turn_state A st) (turn_vector 2 A n)).
Proof.
  pose proof (proj1 (state_matrices s (turn_state A st) _ _ _ _ (turn_vector 2 A n) G V turn_velocity turn_unit)) as X.
  unfold wP, wQ. rewrite turn_velocity. exact X.
Qed.

Lemma wave_inverse_here : inverse 4 (wP st n) (wQ st n).
Proof.
  pose proof (proj1 (state_matrices s st ux uy n0 n1 n G V Eu N)) as X. unfold wP, wQ. rewrite Eu. destruct N as [-> _]. exact X.
Qed.

(** Amplitudes up to the sense of the vorticity wave. *)
Lemma amplitudes_turn : exists g, g * g = 1 /\ forall v k, length v = 4%nat -> (k < 4)%nat ->
  amplitude (wQ (turn_state A st) (turn_vector 2 A n)) (turn 2 A v) k = sense g k * amplitude (wQ st n) v k.
Proof.
  destruct (orthogonal_plane A O) as (a & b & g & Ab & Gg & E00 & E01 & E10 & E11). exists g. split; [exact Gg|]. intros v k L K.
  unfold wQ. rewrite turn_velocity, Eu. destruct N as [-> _]. rewrite !(turn_two A a b g E00 E01 E10 E11). cbn [nth].
  change (q_c (s_gamma s) (turn_state A st)) with (q_c (s_gamma s) st). change (st_rho (turn_state A st)) with (st_rho st).
  apply (amplitude_turn A a b g E00 E01 E10 E11 Ab Gg); [destruct V; lra|exact K|exact L].
Qed.

Lemma wave_turn l v : length v = 4%nat ->
  mvmul (wave (wP (turn_state A st) (turn_vector 2 A n)) (wQ (turn_state A st) (turn_vector 2 A n)) l) (turn 2 A v) = turn 2 A (mvmul (wave (wP st n) (wQ st n) l) v).
Proof.
  intros L. destruct amplitudes_turn as (g & Gg & H).
  apply (same_amplitudes' _ _ _ _ wave_inverse_turn); [rewrite mvmul_length; reflexivity|apply turn_length|]. intros k K.
  rewrite wave_amplitude by (trivial; apply wave_inverse_turn). rewrite !H by (trivial; rewrite mvmul_length; reflexivity).
  rewrite wave_amplitude by (trivial; apply wave_inverse_here). ring.
Qed.

Lemma wP_here : wP st n = PP (s_gamma s) (st_rho st) ux uy (q_c (s_gamma s) st) n0 n1.
Proof. unfold wP. rewrite Eu. destruct N as [-> _]. reflexivity. Qed.
Lemma wQ_here : wQ st n = QQ (s_gamma s) (st_rho st) ux uy (q_c (s_gamma s) st) n0 n1.
Proof. unfold wQ. rewrite Eu. destruct N as [-> _]. reflexivity. Qed.
End Waves.
