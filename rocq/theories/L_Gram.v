(** The energy of a disturbance as a sum over its waves. *)
From Coq Require Import Reals String List Arith Bool Lia Lra Permutation.
From Coquelicot Require Import Coquelicot.
From Verif Require Import Base M_Bla M_Flow M_Formulation M_Weak S_Flow S_Chars S_Formulation S_Weak S_March S_Small L_Flow L_Formulation L_Weak P_Eos P_Chars P_Jacobian P_Split P_Riemann P_Boundary P_Uniform L_Small L_Curve L_Rate L_Linear.
From Verif Require Import S_Formulation.
Import ListNotations.
Open Scope R_scope.
Open Scope list_scope.

(** ** Bilinear forms as sums of products *)

Definition lin (a : nat -> R) (v : list R) : R := total 4 (fun j => a j * nth j v 0).
Definition products := list (R * (nat -> R) * (nat -> R)).
Fixpoint form (L : products) (x y : list R) : R := match L with [] => 0 | (w, a, b) :: L' => w * lin a x * lin b y + form L' x y end.
Fixpoint coefficient (L : products) (i j : nat) : R := match L with [] => 0 | (w, a, b) :: L' => w * a i * b j + coefficient L' i j end.
Definition gram (L : products) : matrix := tabulate 4 4 (coefficient L).

Lemma gram_shape L : shape 4 (gram L).
Proof. repeat split. Qed.

Lemma gram_entry L y i : (i < 4)%nat -> nth i (mvmul (gram L) y) 0 = total 4 (fun j => coefficient L i j * nth j y 0).
Proof. intros I. rewrite mvmul_total by exact I. change (cols (gram L)) with 4%nat. apply total_ext. intros j J. unfold gram. now rewrite entry_tabulate. Qed.

Lemma coefficient_form L x y : total 4 (fun i => nth i x 0 * total 4 (fun j => coefficient L i j * nth j y 0)) = form L x y.
Proof.
  induction L as [|[[w a] b] L IH]; cbn [form coefficient]; [cbn [total]; ring|]. rewrite <- IH. unfold lin. cbn [total]. ring.
Qed.

Lemma gram_form L x y : length x = 4%nat -> inner x (mvmul (gram L) y) = form L x y.
Proof.
  intros Lx. rewrite inner_total by (rewrite mvmul_length; exact Lx). rewrite Lx, <- coefficient_form. apply total_ext. intros i I. now rewrite gram_entry.
Qed.

Lemma lin_vsub a x y : length x = 4%nat -> length y = 4%nat -> lin a (vsub x y) = lin a x - lin a y.
Proof. intros Lx Ly. unfold lin. cbn [total]. rewrite !vsub_nth by congruence. ring. Qed.
Lemma lin_vscale a b x : lin a (vscale b x) = b * lin a x.
Proof. unfold lin. cbn [total]. rewrite !vscale_nth. ring. Qed.

Lemma form_scale_l L b x y : form L (vscale b x) y = b * form L x y.
Proof. induction L as [|[[w a] c] L IH]; cbn [form]; [ring|]. rewrite IH, lin_vscale. ring. Qed.

(** The product rule for a symmetric form. *)
Definition symmetric (L : products) : Prop := forall w a b, In (w, a, b) L -> a = b.

Definition column (M : matrix) (j : nat) : list R := four_list (fun l => entry M l j).

Lemma product_rule m vol bnd t L j : gauss_products m vol bnd t -> symmetric L -> (j < 2)%nat ->
  weighted vol (fun x => form L (tV t x) (column (tdV t x) j)) = / 2 * weighted bnd (fun y => form L (tV t y) (tV t y) * nth j (normal m y) 0).
Proof.
  intros Gs Sy J. induction L as [|[[w a] b] L IH].
  - cbn [form]. rewrite !weighted_zero; [ring| |]; intros; ring.
  - assert (E : a = b) by (apply (Sy w); now left). subst b. cbn [form].
    rewrite weighted_plus, IH by (intros w' a' b' I; apply (Sy w'); now right).
    rewrite (weighted_ext bnd (fun y => (w * lin a (tV t y) * lin a (tV t y) + form L (tV t y) (tV t y)) * nth j (normal m y) 0) (fun y => w * (lin a (tV t y) * lin a (tV t y) * nth j (normal m y) 0) + form L (tV t y) (tV t y) * nth j (normal m y) 0)) by (intros; cbv beta; ring).
    rewrite weighted_plus, weighted_scale.
    rewrite (weighted_ext vol (fun x => w * lin a (tV t x) * lin a (column (tdV t x) j)) (fun x => w * (lin a (tV t x) * lin a (column (tdV t x) j)))) by (intros; cbv beta; ring).
    rewrite weighted_scale. rewrite Rmult_plus_distr_l. f_equal.
    cut (weighted vol (fun x => lin a (tV t x) * lin a (column (tdV t x) j)) = / 2 * weighted bnd (fun y => lin a (tV t y) * lin a (tV t y) * nth j (normal m y) 0)); [intros ->; ring|].
    rewrite (weighted_ext vol _ (fun x => / 2 * total 4 (fun k => total 4 (fun l => a k * a l * (nth k (tV t x) 0 * entry (tdV t x) l j + entry (tdV t x) k j * nth l (tV t x) 0))))).
    2: { intros v x _. unfold lin. cbn [total column four_list nth]. field. }
    rewrite (weighted_ext bnd _ (fun y => total 4 (fun k => total 4 (fun l => a k * a l * (nth k (tV t y) 0 * nth l (tV t y) 0 * nth j (normal m y) 0))))).
    2: { intros v x _. unfold lin. cbn [total]. ring. }
    rewrite weighted_scale, !weighted_total. f_equal. apply total_ext. intros k K. rewrite !weighted_total. apply total_ext. intros l Hl. rewrite !weighted_scale. f_equal. now apply Gs.
Qed.

(** ** The waves of a disturbance *)

Section Waves.
Variables (s : settings) (st : state) (ux uy : R) (al : R).
Hypothesis G : 1 < s_gamma s.
Hypothesis V : valid st.
Hypothesis Eu : st_u st = [ux; uy].
Let g := s_gamma s.
Let c := q_c g st.
Let rho := st_rho st.

Lemma c_pos : 0 < c. Proof. apply (q_c_pos g st G V). Qed.
Lemma c_square : c ^ 2 = g * st_p st / rho. Proof. apply (q_c_square g st G V). Qed.
Lemma rho_pos : 0 < rho. Proof. apply V. Qed.

Definition amp (n0 n1 : R) (k : nat) (v : list R) : R := lin (entry (QQ (s_gamma s) (st_rho st) ux uy (q_c (s_gamma s) st) n0 n1) k) v.
Definition du (v : list R) (n0 n1 : R) : R := d_velocity st v 0 * n0 + d_velocity st v 1 * n1.

Lemma amp_values n0 n1 v :
  amp n0 n1 0 v = d_pressure g st v - rho * c * du v n0 n1 /\
  amp n0 n1 1 v = c ^ 2 * d_density v - d_pressure g st v /\
  amp n0 n1 2 v = d_velocity st v 0 * n1 - d_velocity st v 1 * n0 /\
  amp n0 n1 3 v = d_pressure g st v + rho * c * du v n0 n1.
Proof.
  pose proof rho_pos as R0. unfold amp, lin, d_pressure, du, d_velocity, d_density. rewrite Eu. unfold QQ, mat4. cbn [total nth entry entries cols Nat.add Nat.mul inner]. fold g. fold rho. fold c.
  repeat split; field; lra.
Qed.

(** The weights of the waves. *)
Definition wt (k : nat) : R :=
  match k with 1%nat => al / q_c (s_gamma s) st ^ 4 | 2%nat => st_rho st | _ => 1 / (2 * st_rho st * q_c (s_gamma s) st ^ 2) end.

(** Twice the energy as a symmetric form. *)
Definition energy_form (x y : list R) : R :=
  rho * (d_velocity st x 0 * d_velocity st y 0 + d_velocity st x 1 * d_velocity st y 1) + d_pressure g st x * d_pressure g st y / (rho * c ^ 2)
  + al * (d_density x - d_pressure g st x / c ^ 2) * (d_density y - d_pressure g st y / c ^ 2).

Lemma energy_double v : energy_form v v = 2 * disturbance_energy g st al v.
Proof. unfold energy_form, disturbance_energy. fold c. fold rho. pose proof c_pos. pose proof rho_pos. field. lra. Qed.

Lemma energy_waves n0 n1 x y : n0 * n0 + n1 * n1 = 1 -> energy_form x y = total 4 (fun k => wt k * (amp n0 n1 k x * amp n0 n1 k y)).
Proof.
  intros N. assert (N' : n0 * n0 = 1 - n1 * n1) by lra. destruct (amp_values n0 n1 x) as (X0 & X1 & X2 & X3). destruct (amp_values n0 n1 y) as (Y0 & Y1 & Y2 & Y3).
  cbn [total]. rewrite X0, X1, X2, X3, Y0, Y1, Y2, Y3. unfold energy_form, wt. fold g. fold c. fold rho. pose proof c_pos. pose proof rho_pos. unfold du.
  generalize (d_velocity st x 0), (d_velocity st x 1), (d_velocity st y 0), (d_velocity st y 1), (d_pressure g st x), (d_pressure g st y), (d_density x), (d_density y). intros.
  field [N']. lra.
Qed.

(** The flux in a direction. *)
Definition normal_rate (n0 n1 : R) (v : list R) : list R := four_list (fun i => total 2 (fun j => flux_rate (s_gamma s) st v i j * nth j [n0; n1] 0)).

Lemma normal_rate_values n0 n1 v : let un := ux * n0 + uy * n1 in let r := normal_rate n0 n1 v in
  d_density r = un * d_density v + rho * du v n0 n1 /\
  d_velocity st r 0 = un * d_velocity st v 0 + d_pressure g st v * n0 / rho /\
  d_velocity st r 1 = un * d_velocity st v 1 + d_pressure g st v * n1 / rho /\
  d_pressure g st r = un * d_pressure g st v + rho * c ^ 2 * du v n0 n1.
Proof.
  assert (Q : q_rho_E g st = st_p st / (g - 1) + rho * (ux * ux + uy * uy) / 2).
  { unfold q_rho_E, q_E, q_Ei, q_rho_Ei, q_Ek. rewrite Eu. cbn [inner]. fold rho. pose proof rho_pos. unfold g in *. field. lra. }
  cbv zeta. rewrite c_square. unfold du, d_density, d_velocity, d_pressure. rewrite Eu. unfold normal_rate, four_list, flux_rate, d_density, d_velocity, d_pressure. fold g. rewrite Q. rewrite Eu. unfold delta.
  cbn [nth total Nat.sub Nat.add Nat.eqb]. fold rho. pose proof rho_pos. assert (g - 1 <> 0) by (unfold g; lra). repeat split; field; lra.
Qed.

Lemma normal_rate_amp n0 n1 v k : n0 * n0 + n1 * n1 = 1 -> (k < 4)%nat -> amp n0 n1 k (normal_rate n0 n1 v) = lam0 s st ux uy n0 n1 k * amp n0 n1 k v.
Proof.
  intros N K. assert (N' : n0 * n0 = 1 - n1 * n1) by lra.
  destruct (normal_rate_values n0 n1 v) as (R0 & R1 & R2 & R3). destruct (amp_values n0 n1 v) as (X0 & X1 & X2 & X3).
  destruct (amp_values n0 n1 (normal_rate n0 n1 v)) as (Y0 & Y1 & Y2 & Y3).
  assert (D : du (normal_rate n0 n1 v) n0 n1 = (ux * n0 + uy * n1) * du v n0 n1 + d_pressure g st v / rho).
  { unfold du at 1. rewrite R1, R2. unfold du. pose proof rho_pos. field [N']. lra. }
  pose proof rho_pos. unfold lam0. fold g. fold c.
  four k K; cbn [wave_speed].
  - rewrite Y0, X0, R3, D. field. lra.
  - rewrite Y1, X1, R3, R0. ring.
  - rewrite Y2, X2, R1, R2. field. lra.
  - rewrite Y3, X3, R3, D. field. lra.
Qed.

Lemma wave_amp n0 n1 l v k : n0 * n0 + n1 * n1 = 1 -> (k < 4)%nat -> amp n0 n1 k (mvmul (wave0 s st ux uy n0 n1 l) v) = l k * amp n0 n1 k v.
Proof.
  intros N K. destruct (state_matrices s st ux uy n0 n1 [n0; n1] G V Eu (conj eq_refl N)) as (Inv & _). exact (wave_amplitude _ _ l v k Inv K).
Qed.

(** The linearised numerical flux acts on the waves. *)
Lemma flux_change_amp n0 n1 vU vH k : n0 * n0 + n1 * n1 = 1 -> length vU = 4%nat -> length vH = 4%nat -> (k < 4)%nat ->
  amp n0 n1 k (flux_change s st ux uy n0 n1 vU vH) = lam0 s st ux uy n0 n1 k * amp n0 n1 k vH + dis0 s st ux uy n0 n1 k * (amp n0 n1 k vU - amp n0 n1 k vH).
Proof.
  intros N LU LH K. rewrite <- normal_rate_amp by assumption.
  assert (X : amp n0 n1 k (vsub vU vH) = amp n0 n1 k vU - amp n0 n1 k vH) by (now apply lin_vsub). rewrite <- X, <- wave_amp by assumption.
  unfold amp, lin. cbn [total]. unfold flux_change. rewrite !four_list_nth by lia. unfold normal_rate. rewrite !four_list_nth by lia. ring.
Qed.

Lemma far_change_amp b n0 n1 vU vH k : n0 * n0 + n1 * n1 = 1 -> length vU = 4%nat -> length vH = 4%nat -> (k < 4)%nat -> lam0 s st ux uy n0 n1 k <> 0 ->
  amp n0 n1 k (far_change s st ux uy b n0 n1 vU vH) = (if b then 1 else Rabs (lam0 s st ux uy n0 n1 k)) * (amp n0 n1 k vH - (if Rlt_dec 0 (lam0 s st ux uy n0 n1 k) then amp n0 n1 k vU else 0)).
Proof.
  intros N LU LH K NZ. destruct b.
  - transitivity (amp n0 n1 k vH - amp n0 n1 k (mvmul (wave0 s st ux uy n0 n1 (fun k => selected Outgoing (lam0 s st ux uy n0 n1 k))) vU)).
    + unfold amp, lin. cbn [total]. unfold far_change. rewrite !four_list_nth by lia. ring.
    + rewrite wave_amp by assumption. unfold selected. destruct (Rlt_dec 0 _); ring.
  - transitivity (amp n0 n1 k (mvmul (wave0 s st ux uy n0 n1 (fun k => part Outgoing (lam0 s st ux uy n0 n1 k))) (vsub vH vU)) - amp n0 n1 k (mvmul (wave0 s st ux uy n0 n1 (fun k => part Incoming (lam0 s st ux uy n0 n1 k))) vH)).
    + unfold amp, lin. cbn [total]. unfold far_change. rewrite !four_list_nth by lia. ring.
    + rewrite !wave_amp by assumption. assert (X : amp n0 n1 k (vsub vH vU) = amp n0 n1 k vH - amp n0 n1 k vU) by (now apply lin_vsub). rewrite X.
      unfold part, Rmax, Rmin, Rabs. destruct (Rlt_dec 0 _), (Rle_dec _ 0), (Rcase_abs _); try lra; ring.
Qed.

(** At a wall along the flow. *)
Lemma slip_change_values n0 n1 vU vH : n0 * n0 + n1 * n1 = 1 -> ux * n0 + uy * n1 = 0 ->
  let r := slip_change n0 n1 vU vH in
  d_density r = d_density vH - d_density vU /\ d_pressure g st r = d_pressure g st vH - d_pressure g st vU /\ du r n0 n1 = du vH n0 n1 /\
  d_velocity st r 0 * n1 - d_velocity st r 1 * n0 = (d_velocity st vH 0 * n1 - d_velocity st vH 1 * n0) - (d_velocity st vU 0 * n1 - d_velocity st vU 1 * n0).
Proof.
  intros N U. cbv zeta. unfold du, d_density, d_velocity, d_pressure. rewrite Eu. unfold slip_change, slip_list, four_list. cbn [nth Nat.add]. fold rho. pose proof rho_pos as R0.
  set (m := nth 1 vU 0 * n0 + nth 2 vU 0 * n1).
  repeat split; trivial.
  - replace (ux * (nth 1 vH 0 - (nth 1 vU 0 - m * n0)) + uy * (nth 2 vH 0 - (nth 2 vU 0 - m * n1))) with (ux * (nth 1 vH 0 - nth 1 vU 0) + uy * (nth 2 vH 0 - nth 2 vU 0) + m * (ux * n0 + uy * n1)) by ring.
    rewrite U. ring.
  - replace ((nth 1 vH 0 - (nth 1 vU 0 - m * n0) - ux * (nth 0 vH 0 - nth 0 vU 0)) / rho * n0 + (nth 2 vH 0 - (nth 2 vU 0 - m * n1) - uy * (nth 0 vH 0 - nth 0 vU 0)) / rho * n1)
      with (((nth 1 vH 0 * n0 + nth 2 vH 0 * n1) + m * (n0 * n0 + n1 * n1) - m - (ux * n0 + uy * n1) * (nth 0 vH 0 - nth 0 vU 0)) / rho) by (unfold m; field; lra).
    rewrite N, U. replace ((nth 1 vH 0 - ux * nth 0 vH 0) / rho * n0 + (nth 2 vH 0 - uy * nth 0 vH 0) / rho * n1) with ((nth 1 vH 0 * n0 + nth 2 vH 0 * n1 - (ux * n0 + uy * n1) * nth 0 vH 0) / rho) by (field; lra).
    rewrite U. field. lra.
  - field. lra.
Qed.
End Waves.
