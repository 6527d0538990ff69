(** Linearised at a uniform flow, the spatial forms take energy from the disturbance. *)
From Coq Require Import Reals String List Arith Bool Lia Lra Psatz Permutation.
From Coquelicot Require Import Coquelicot.
From Verif Require Import Base M_Bla M_Flow M_Formulation M_Weak S_Flow S_Chars S_Formulation S_Weak S_March S_Small L_Flow L_Formulation L_Weak P_Eos P_Chars P_Jacobian P_Split P_Riemann P_Boundary P_Uniform L_Small L_Curve L_Rate L_Linear L_Gram L_Disturb.
From Verif Require Import S_Formulation.
Import ListNotations.
Open Scope R_scope.
Open Scope list_scope.

Lemma weighted_le q f h : nonnegative q -> (forall w x, In (w, x) q -> f x <= h x) -> weighted q f <= weighted q h.
Proof.
  induction q as [|[w x] q IH]; intros N H; cbn [weighted]; [lra|].
  assert (w * f x <= w * h x) by (apply Rmult_le_compat_l; [apply (N w x); now left|apply (H w x); now left]).
  assert (weighted q f <= weighted q h) by (apply IH; [intros w' x' I; apply (N w' x'); now right|intros w' x' I; apply (H w' x'); now right]). lra.
Qed.

Lemma weighted_nonneg q f : nonnegative q -> (forall w x, In (w, x) q -> 0 <= f x) -> 0 <= weighted q f.
Proof. intros N H. rewrite <- (weighted_zero q (fun _ => 0)) by reflexivity. now apply weighted_le. Qed.

Lemma weighted_concat qs f : weighted (concat qs) f = fold_right (fun q a => weighted q f + a) 0 qs.
Proof.
  induction qs as [|q qs IH]; cbn [concat fold_right]; [reflexivity|]. rewrite <- IH. generalize (concat qs). intros q'.
  induction q as [|[w x] q IHq]; cbn [app weighted]; [ring|]. rewrite IHq. ring.
Qed.

(** ** One wave at a boundary *)

Lemma inner_facet lam l x z : 0 <= l -> lam <= l -> - / 2 * (lam * (z * z)) <= - / 2 * (lam * (x * x)) + (lam * z + l * (x - z)) * x - (lam * z + l * (x - z)) * z.
Proof.
  intros L0 L1. assert (0 <= (l - lam / 2) * ((x - z) * (x - z))) by (apply Rmult_le_pos; [lra|apply Rle_0_sqr]).
  replace (- / 2 * (lam * (x * x)) + (lam * z + l * (x - z)) * x - (lam * z + l * (x - z)) * z) with (- / 2 * (lam * (z * z)) + (l - lam / 2) * ((x - z) * (x - z))) by field. lra.
Qed.

Lemma far_facet lam l x z : 0 <= l -> lam <= l ->
  0 <= - / 2 * (lam * (x * x)) + (lam * z + l * (x - z)) * x + (if Rlt_dec 0 lam then l else l + Rabs lam) * ((z - (if Rlt_dec 0 lam then x else 0)) * z).
Proof.
  intros L0 L1. destruct (Rlt_dec 0 lam) as [P|P].
  - replace (- / 2 * (lam * (x * x)) + (lam * z + l * (x - z)) * x + l * ((z - x) * z)) with (lam / 2 * (z * z) + (l - lam / 2) * ((x - z) * (x - z))) by field.
    apply Rplus_le_le_0_compat; apply Rmult_le_pos; try lra; apply Rle_0_sqr.
  - assert (E : Rabs lam = - lam) by (apply Rabs_left1; lra). rewrite E.
    replace (- / 2 * (lam * (x * x)) + (lam * z + l * (x - z)) * x + (l + - lam) * ((z - 0) * z))
      with ((- lam + l) / 2 * ((x - z) * (x - z)) + (- lam + l) / 2 * (z * z) + l / 2 * (x * x)) by field.
    repeat apply Rplus_le_le_0_compat; apply Rmult_le_pos; try lra; apply Rle_0_sqr.
Qed.

Lemma quadratic3 a b z : 0 <= a * a - a * b + b * b + b * z + z * z.
Proof.
  replace (a * a - a * b + b * b + b * z + z * z) with ((a - b / 2) * (a - b / 2) + (b / 2 + z) * (b / 2 + z) + / 2 * (b * b)) by field.
  repeat apply Rplus_le_le_0_compat; try apply Rle_0_sqr. apply Rmult_le_pos; [lra|apply Rle_0_sqr].
Qed.

Section Estimate.
Variables (s : settings) (m : mesh) (r : rules) (bs : list (rule * edge)) (ls : list sponge) (st : state) (ux uy al : R).
Variables (e : test) (twin : nat -> nat).
Hypothesis G : 1 < s_gamma s.
Hypothesis V : valid st.
Hypothesis Eu : st_u st = [ux; uy].
Hypothesis Al : 0 < al.
Hypothesis We : well_formed 2 e.
Hypothesis Sv : single_valued twin e.
Hypothesis Gs : gauss_products m (r_cvol r) (r_cbnd r) e.
Hypothesis Tw : two_sided m (r_cbnd r) twin.
Hypothesis Pm : plane_mesh m (r_cbnd r).
Let g := s_gamma s.
Let c := q_c g st.
Let Am n0 n1 k v := amp s st ux uy n0 n1 k v.
Let lam n0 n1 k := lam0 s st ux uy n0 n1 k.
Let dis n0 n1 k := dis0 s st ux uy n0 n1 k.
Let EF x y := energy_form s st al x y.

Definition waves4 (n0 n1 : R) (f : nat -> R) : products :=
  map (fun k => (wt s st al k * f k, entry (QQ (s_gamma s) (st_rho st) ux uy (q_c (s_gamma s) st) n0 n1) k, entry (QQ (s_gamma s) (st_rho st) ux uy (q_c (s_gamma s) st) n0 n1) k)) [0; 1; 2; 3]%nat.

Lemma form_waves n0 n1 f x y : form (waves4 n0 n1 f) x y = total 4 (fun k => wt s st al k * (f k * (Am n0 n1 k x * Am n0 n1 k y))).
Proof. unfold waves4. cbn [map form total]. unfold Am, amp. ring. Qed.

Definition HH : matrix := gram (waves4 1 0 (fun _ => 1)).

Lemma HH_inner x y : length x = 4%nat -> inner x (mvmul HH y) = EF x y.
Proof.
  intros L. unfold HH. rewrite gram_form, form_waves by exact L. unfold EF. rewrite (energy_waves s st ux uy al G V Eu 1 0) by ring. apply total_ext. intros k K. fold (Am 1 0 k x). fold (Am 1 0 k y). ring.
Qed.

Lemma wt_nonneg k : 0 <= wt s st al k.
Proof.
  pose proof (c_pos s st G V) as C. pose proof (rho_pos st V) as R0. unfold wt.
  assert (A : 0 <= 1 / (2 * st_rho st * q_c (s_gamma s) st ^ 2)) by (left; apply Rdiv_lt_0_compat; [lra|]; apply Rmult_lt_0_compat; [lra|apply pow_lt, C]).
  destruct k as [|[|[|k]]]; trivial; [|lra]. left. apply Rdiv_lt_0_compat; [exact Al|apply pow_lt, C].
Qed.

Lemma flux_energy n0 n1 vU vH y : n0 * n0 + n1 * n1 = 1 -> length vU = 4%nat -> length vH = 4%nat ->
  EF (flux_change s st ux uy n0 n1 vU vH) y = total 4 (fun k => wt s st al k * ((lam n0 n1 k * Am n0 n1 k vH + dis n0 n1 k * (Am n0 n1 k vU - Am n0 n1 k vH)) * Am n0 n1 k y)).
Proof.
  intros N LU LH. unfold EF. rewrite (energy_waves s st ux uy al G V Eu n0 n1) by exact N. apply total_ext. intros k K. rewrite (flux_change_amp s st ux uy G V Eu n0 n1) by assumption. reflexivity.
Qed.

Lemma rate_energy n0 n1 x y : n0 * n0 + n1 * n1 = 1 -> EF (normal_rate s st n0 n1 x) y = form (waves4 n0 n1 (lam n0 n1)) x y.
Proof.
  intros N. unfold EF. rewrite (energy_waves s st ux uy al G V Eu n0 n1), form_waves by exact N. apply total_ext. intros k K. rewrite (normal_rate_amp s st ux uy G V Eu n0 n1) by assumption. unfold Am, lam. ring.
Qed.

Lemma rate_linear n0 n1 x y : EF (normal_rate s st n0 n1 x) y = n0 * EF (normal_rate s st 1 0 x) y + n1 * EF (normal_rate s st 0 1 x) y.
Proof.
  rewrite <- !HH_inner by reflexivity. rewrite !inner_total by (rewrite mvmul_length; reflexivity). change (length (normal_rate s st n0 n1 x)) with 4%nat. change (length (normal_rate s st 1 0 x)) with 4%nat. change (length (normal_rate s st 0 1 x)) with 4%nat.
  cbn [total]. unfold normal_rate. rewrite !four_list_nth by lia. cbn [total nth]. ring.
Qed.

(** The volume term. *)
Lemma volume_energy : weighted (r_cvol r) (fun x => -1 * inner (entries (tabulate 4 2 (flux_rate (s_gamma s) st (tV e x)))) (entries (mmul HH (tdV e x)))) =
  - / 2 * weighted (r_cbnd r) (fun y => EF (normal_rate s st (nx m y) (ny m y) (tV e y)) (tV e y)).
Proof.
  set (S0 := waves4 1 0 (lam 1 0)). set (S1 := waves4 0 1 (lam 0 1)).
  assert (Sy : forall n0 n1 f, symmetric (waves4 n0 n1 f)). { intros n0 n1 f w a b I. unfold waves4 in I. cbn [map In] in I. decompose [or] I; try (match goal with H : _ = _ |- _ => injection H as _ <- <- end; reflexivity). contradiction. }
  assert (X : forall x, inner (entries (tabulate 4 2 (flux_rate (s_gamma s) st (tV e x)))) (entries (mmul HH (tdV e x))) = form S0 (tV e x) (column (tdV e x) 0) + form S1 (tV e x) (column (tdV e x) 1)).
  { intros x. destruct (We x) as (LV & _ & R1 & C1 & L1).
    rewrite (inner_double 4 2); [|reflexivity|exact C1|reflexivity|unfold mmul; rewrite tabulate_length, C1; reflexivity].
    unfold S0, S1. rewrite <- !rate_energy by ring. rewrite <- !HH_inner by reflexivity. rewrite !inner_total by (rewrite mvmul_length; reflexivity).
    change (length (normal_rate s st 1 0 (tV e x))) with 4%nat. change (length (normal_rate s st 0 1 (tV e x))) with 4%nat. rewrite <- total_plus. apply total_ext. intros k K. cbn [total].
    rewrite !entry_tabulate by lia. rewrite !mmul_entry, !rsum_total, !mvmul_total by (rewrite ?C1; cbn; lia). change (cols HH) with 4%nat.
    unfold normal_rate. rewrite !four_list_nth by exact K. cbn [total nth]. unfold column. rewrite !four_list_nth by lia. ring. }
  rewrite weighted_scale, (weighted_ext _ _ _ (fun w x _ => X x)), weighted_plus.
  rewrite (product_rule m (r_cvol r) (r_cbnd r) e S0 0 Gs (Sy _ _ _)), (product_rule m (r_cvol r) (r_cbnd r) e S1 1 Gs (Sy _ _ _)) by lia.
  rewrite (weighted_ext (r_cbnd r) (fun y => EF (normal_rate s st (nx m y) (ny m y) (tV e y)) (tV e y)) (fun y => form S0 (tV e y) (tV e y) * nth 0 (normal m y) 0 + form S1 (tV e y) (tV e y) * nth 1 (normal m y) 0)).
  - rewrite weighted_plus. ring.
  - intros w y _. unfold S0, S1. rewrite <- !rate_energy by ring. rewrite rate_linear. unfold nx, ny. ring.
Qed.

(** What multiplies the facet functions of the boundaries. *)
Definition far_K (b : bool) (n0 n1 : R) : matrix :=
  gram (waves4 n0 n1 (fun k => (if Rlt_dec 0 (lam0 s st ux uy n0 n1 k) then dis0 s st ux uy n0 n1 k else dis0 s st ux uy n0 n1 k + Rabs (lam0 s st ux uy n0 n1 k)) / (if b then 1 else Rabs (lam0 s st ux uy n0 n1 k)))).
Let Q n0 n1 := QQ (s_gamma s) (st_rho st) ux uy (q_c (s_gamma s) st) n0 n1.
Definition wall_K (n0 n1 : R) : matrix :=
  let row k := entry (QQ (s_gamma s) (st_rho st) ux uy (q_c (s_gamma s) st) n0 n1) k in
  let P j := (row 0%nat j + row 3%nat j) / 2 in let D j := (row 3%nat j - row 0%nat j) / 2 in
  let w := 2 * q_c (s_gamma s) st * wt s st al 0 in
  gram [(wt s st al 1 * dis0 s st ux uy n0 n1 1, row 1%nat, row 1%nat); (wt s st al 2 * dis0 s st ux uy n0 n1 2, row 2%nat, row 2%nat); (w, P, P); (w, D, D); (- w, D, P)].
Definition edge_K (k : edge) (n0 n1 : R) : matrix := match k with FarEdge b _ => far_K b n0 n1 | SlipEdge => wall_K n0 n1 end.

Lemma edge_K_shape k n0 n1 : shape 4 (edge_K k n0 n1).
Proof. destruct k; apply gram_shape. Qed.

Lemma dis_bounds n0 n1 k : (k < 4)%nat -> 0 <= dis n0 n1 k /\ lam n0 n1 k <= dis n0 n1 k.
Proof. intros K. apply dissipation_bounds; [apply (c_pos s st G V)|exact K]. Qed.

Lemma outer_energy k n n0 n1 x z : unit2 n n0 n1 -> suits s st n k -> length x = 4%nat -> length z = 4%nat ->
  0 <= - / 2 * EF (normal_rate s st n0 n1 x) x + EF (flux_change s st ux uy n0 n1 x z) x + inner (edge_change s st ux uy k n0 n1 x z) (mvmul (edge_K k n0 n1) z).
Proof.
  intros [En N] Su Lx Lz. rewrite rate_energy, form_waves, flux_energy by assumption. destruct k as [b fields|]; cbn [edge_change edge_K suits] in *.
  - destruct Su as [_ Nz].
    assert (Nz' : forall j, (j < 4)%nat -> lam n0 n1 j <> 0) by (intros j J; specialize (Nz j J); rewrite En, Eu in Nz; cbn [inner] in Nz; rewrite Rplus_0_r in Nz; exact Nz). clear Nz.
    unfold far_K. rewrite gram_form, form_waves by reflexivity.
    rewrite <- total_scale, <- !total_plus.
    assert (T : forall f, (forall k, (k < 4)%nat -> 0 <= f k) -> 0 <= total 4 f).
    { intros f H. cbn [total]. pose proof (H 0%nat ltac:(lia)). pose proof (H 1%nat ltac:(lia)). pose proof (H 2%nat ltac:(lia)). pose proof (H 3%nat ltac:(lia)). lra. }
    apply T. intros k K. pose proof (far_change_amp s st ux uy G V Eu b n0 n1 x z k N Lx Lz K (Nz' k K)) as FA. fold (Am n0 n1 k x) in FA. fold (Am n0 n1 k z) in FA. fold (Am n0 n1 k (far_change s st ux uy b n0 n1 x z)) in FA. fold (lam n0 n1 k) in FA. fold (lam n0 n1 k). fold (dis n0 n1 k). rewrite FA.
    destruct (dis_bounds n0 n1 k K) as [D0 D1]. pose proof (far_facet (lam n0 n1 k) (dis n0 n1 k) (Am n0 n1 k x) (Am n0 n1 k z) D0 D1) as F. pose proof (wt_nonneg k) as W.
    set (be := if Rlt_dec 0 (lam n0 n1 k) then dis n0 n1 k else dis n0 n1 k + Rabs (lam n0 n1 k)) in *.
    set (mk := if b then 1 else Rabs (lam n0 n1 k)). assert (M : mk <> 0) by (unfold mk; destruct b; [lra|apply Rabs_no_R0, Nz', K]).
    set (y := if Rlt_dec 0 (lam n0 n1 k) then Am n0 n1 k x else 0) in *.
    match goal with |- 0 <= ?a => replace a with (wt s st al k * (- / 2 * (lam n0 n1 k * (Am n0 n1 k x * Am n0 n1 k x)) + (lam n0 n1 k * Am n0 n1 k z + dis n0 n1 k * (Am n0 n1 k x - Am n0 n1 k z)) * Am n0 n1 k x + be * ((Am n0 n1 k z - y) * Am n0 n1 k z))) by (field; exact M) end.
    apply Rmult_le_pos; [exact W|exact F].
  - destruct Su as [Un Up]. rewrite En, Eu in Un. cbn [inner] in Un. rewrite Rplus_0_r in Un.
    pose proof (c_pos s st G V) as C. fold g in C. fold c in C. pose proof (rho_pos st V) as R0.
    unfold wall_K. rewrite gram_form by reflexivity. cbn [form].
    assert (LP : forall v, lin (fun j => (entry (Q n0 n1) 0 j + entry (Q n0 n1) 3 j) / 2) v = (Am n0 n1 0 v + Am n0 n1 3 v) / 2) by (intros v; unfold Am, amp, lin; fold (Q n0 n1); cbn [total]; field).
    assert (LD : forall v, lin (fun j => (entry (Q n0 n1) 3 j - entry (Q n0 n1) 0 j) / 2) v = (Am n0 n1 3 v - Am n0 n1 0 v) / 2) by (intros v; unfold Am, amp, lin; fold (Q n0 n1); cbn [total]; field).
    fold (Q n0 n1). rewrite !LP, !LD.
    assert (L1 : forall k v, lin (entry (Q n0 n1) k) v = Am n0 n1 k v) by reflexivity. rewrite !L1.
    destruct (slip_change_values s st ux uy V Eu n0 n1 x z N Un) as (S1 & S2 & S3 & S4).
    destruct (amp_values s st ux uy V Eu n0 n1 x) as (X0 & X1 & X2 & X3). destruct (amp_values s st ux uy V Eu n0 n1 z) as (Z0 & Z1 & Z2 & Z3).
    destruct (amp_values s st ux uy V Eu n0 n1 (slip_change n0 n1 x z)) as (Y0 & Y1 & Y2 & Y3).
    rewrite S1, S2 in Y1. rewrite S4 in Y2. rewrite S2, S3 in Y0, Y3.
    destruct (dissipation_wall (s_riemann s) c C Up) as [E0 E3].
    assert (K0 : dis n0 n1 0 = c) by (unfold dis, dis0; rewrite Un; exact E0). assert (K3 : dis n0 n1 3 = c) by (unfold dis, dis0; rewrite Un; exact E3).
    destruct (dis_bounds n0 n1 1 ltac:(lia)) as [D1 _]. destruct (dis_bounds n0 n1 2 ltac:(lia)) as [D2 _].
    assert (l0 : lam n0 n1 0 = - c) by (unfold lam, lam0; rewrite Un; cbn [wave_speed]; fold g; fold c; ring).
    assert (l1 : lam n0 n1 1 = 0) by (unfold lam, lam0; rewrite Un; reflexivity). assert (l2 : lam n0 n1 2 = 0) by (unfold lam, lam0; rewrite Un; reflexivity).
    assert (l3 : lam n0 n1 3 = c) by (unfold lam, lam0; rewrite Un; cbn [wave_speed]; fold g; fold c; ring).
    cbn [total]. rewrite l0, l1, l2, l3, K0, K3. unfold dis in D1, D2 |- *.
    fold (Am n0 n1 0 x) in X0. fold (Am n0 n1 1 x) in X1. fold (Am n0 n1 2 x) in X2. fold (Am n0 n1 3 x) in X3.
    fold (Am n0 n1 0 z) in Z0. fold (Am n0 n1 1 z) in Z1. fold (Am n0 n1 2 z) in Z2. fold (Am n0 n1 3 z) in Z3.
    fold (Am n0 n1 0 (slip_change n0 n1 x z)) in Y0. fold (Am n0 n1 1 (slip_change n0 n1 x z)) in Y1. fold (Am n0 n1 2 (slip_change n0 n1 x z)) in Y2. fold (Am n0 n1 3 (slip_change n0 n1 x z)) in Y3.
    rewrite X0, X1, X2, X3, Z0, Z1, Z2, Z3, Y0, Y1, Y2, Y3. change (wt s st al 3) with (wt s st al 0).
    pose proof (wt_nonneg 0) as W0. pose proof (wt_nonneg 1) as W1. pose proof (wt_nonneg 2) as W2.
    set (px := d_pressure g st x). set (pz := d_pressure g st z). set (ax := st_rho st * q_c (s_gamma s) st * du st x n0 n1). set (az := st_rho st * q_c (s_gamma s) st * du st z n0 n1).
    set (x1 := q_c (s_gamma s) st ^ 2 * d_density x - px). set (z1 := q_c (s_gamma s) st ^ 2 * d_density z - pz).
    set (x2 := d_velocity st x 0 * n1 - d_velocity st x 1 * n0). set (z2 := d_velocity st z 0 * n1 - d_velocity st z 1 * n0).
    fold g in px, pz |- *. fold c.
    match goal with |- 0 <= ?a => replace a with (wt s st al 1 * dis0 s st ux uy n0 n1 1 * ((x1 - z1) * (x1 - z1)) + wt s st al 2 * dis0 s st ux uy n0 n1 2 * ((x2 - z2) * (x2 - z2))
      + 2 * c * wt s st al 0 * ((px - pz) * (px - pz) - (px - pz) * (ax - az) + (ax - az) * (ax - az) + (ax - az) * az + az * az)) by (unfold x1, z1, px, pz; fold g; fold c; field) end.
    apply Rplus_le_le_0_compat; [apply Rplus_le_le_0_compat|].
    + apply Rmult_le_pos; [apply Rmult_le_pos; [exact W1|exact D1]|apply Rle_0_sqr].
    + apply Rmult_le_pos; [apply Rmult_le_pos; [exact W2|exact D2]|apply Rle_0_sqr].
    + apply Rmult_le_pos; [apply Rmult_le_pos; [lra|exact W0]|apply quadratic3].
Qed.

(** All terms together. *)
Variables (dd : nat -> list R).
Hypothesis En : enclosed s m st (r_cbnd r) bs.
Hypothesis Ca : calms s st ls.
Hypothesis Ld : forall x, length (dd x) = 4%nat.

Lemma layers_energy ls' K : (forall l, In l ls' -> In l ls) -> 0 <= layer_sum e ls' (mixed m HH K e).
Proof.
  induction ls' as [|l ls' IH]; intros Sub; cbn [layer_sum]; [lra|]. apply Rplus_le_le_0_compat; [|apply IH; intros; apply Sub; now right].
  destruct (Ca l (Sub l (or_introl eq_refl))) as [Nn Tg]. apply weighted_nonneg; [exact Nn|]. intros w x I. cbn [mixed tV]. destruct (Tg w x I) as [_ Sg].
  rewrite HH_inner by (rewrite vscale_length; apply (We x)).
  replace (EF (vscale (s_function l x) (tV e x)) (tV e x)) with (s_function l x * EF (tV e x) (tV e x)).
  - apply Rmult_le_pos; [exact Sg|]. unfold EF. rewrite (energy_waves s st ux uy al G V Eu 1 0) by ring. cbn [total].
    assert (Q' : forall k, 0 <= wt s st al k * (amp s st ux uy 1 0 k (tV e x) * amp s st ux uy 1 0 k (tV e x))) by (intros k; apply Rmult_le_pos; [apply wt_nonneg|apply Rle_0_sqr]).
    pose proof (Q' 0%nat). pose proof (Q' 1%nat). pose proof (Q' 2%nat). pose proof (Q' 3%nat). lra.
  - rewrite <- !HH_inner by (rewrite ?vscale_length; apply (We x)). unfold HH. rewrite !gram_form by (rewrite ?vscale_length; apply (We x)). now rewrite form_scale_l.
Qed.

Lemma edges_total (side : nat -> edge) bs' K : (forall q k w y, In (q, k) bs' -> In (w, y) q -> side (facet m y) = k) ->
  edge_sum s m st ux uy e bs' (mixed m HH K e) =
  weighted (concat (map fst bs')) (fun y => inner (edge_change s st ux uy (side (facet m y)) (nx m y) (ny m y) (tV e y) (tVhat e y)) (mvmul (K (facet m y)) (tVhat e y))).
Proof.
  intros Sd. rewrite weighted_concat. induction bs' as [|[q k] bs' IH]; cbn [edge_sum map fst fold_right]; [reflexivity|]. f_equal; [|apply IH; intros q' k' w y I J; apply (Sd q' k' w y); [now right|exact J]].
  apply weighted_ext. intros w y I. cbn [mixed tVhat]. rewrite (Sd q k w y (or_introl eq_refl) I). reflexivity.
Qed.

Lemma energy_estimate : exists K, (forall f, shape 4 (K f)) /\
  (linear_form s m r bs ls st ux uy e dd (mixed m HH K e) = 0 -> weighted (r_time r) (fun x => EF (dd x) (tV e x)) <= 0).
Proof.
  destruct En as [Pe (side & dir & Hs)].
  set (K := fun f => if outer_facet m f then edge_K (side f) (nth 0 (dir f) 0) (nth 1 (dir f) 0) else HH).
  exists K. split; [intros f; unfold K; destruct (outer_facet m f); [apply edge_K_shape|apply gram_shape]|]. intros Z.
  unfold linear_form in Z. cbn [mixed tV tdV tVhat] in Z. rewrite volume_energy in Z.
  rewrite (edges_total side bs K) in Z by (intros q k w y I J; apply (Hs q k w y I J)).
  pose proof (layers_energy ls K (fun _ I => I)) as Ls.
  rewrite <- (weighted_permutation _ _ _ Pe) in Z.
  rewrite (weighted_ext (r_time r) _ (fun x => EF (dd x) (tV e x))) in Z by (intros w x _; cbv beta; rewrite Rmult_1_l, HH_inner by apply Ld; reflexivity).
  set (out := fun y => outer_facet m (facet m y)) in *.
  set (B1 := fun y => EF (normal_rate s st (nx m y) (ny m y) (tV e y)) (tV e y)) in *.
  set (B2 := fun y => EF (flux_at s m st ux uy e y) (tV e y)).
  set (B3 := fun y => EF (flux_at s m st ux uy e y) (tVhat e y)).
  set (B4 := fun y => inner (edge_change s st ux uy (side (facet m y)) (nx m y) (ny m y) (tV e y) (tVhat e y)) (mvmul (K (facet m y)) (tVhat e y))) in *.
  set (B5 := fun y => EF (normal_rate s st (nx m y) (ny m y) (tVhat e y)) (tVhat e y)).
  set (T := weighted (r_time r) (fun x => EF (dd x) (tV e x))) in *.
  rewrite (weighted_ext (r_cbnd r) (fun y => 1 * inner (flux_at s m st ux uy e y) (mvmul HH (tV e y))) B2) in Z by (intros w y _; rewrite Rmult_1_l, HH_inner by reflexivity; reflexivity).
  rewrite (weighted_ext (r_cbnd r) (fun y => - mask m y * inner (flux_at s m st ux uy e y) (mvmul (K (facet m y)) (tVhat e y))) (fun y => if negb (out y) then -1 * B3 y else 0)) in Z.
  2: { intros w y _. unfold mask, out, K, B3. destruct (outer_facet m (facet m y)); cbn [negb]; [ring|]. rewrite HH_inner by reflexivity. ring. }
  rewrite weighted_select, weighted_scale in Z.
  rewrite (weighted_split (r_cbnd r) out B1), (weighted_split (r_cbnd r) out B2) in Z.
  destruct Pm as [Nn _].
  assert (Nout : nonnegative (at_points out (r_cbnd r))) by (intros w y I; apply in_at_points in I; apply (Nn w y), I).
  assert (Nin : nonnegative (at_points (fun y => negb (out y)) (r_cbnd r))) by (intros w y I; apply in_at_points in I; apply (Nn w y), I).
  assert (Outer : 0 <= - / 2 * weighted (at_points out (r_cbnd r)) B1 + weighted (at_points out (r_cbnd r)) B2 + weighted (at_points out (r_cbnd r)) B4).
  { rewrite <- weighted_scale, <- !weighted_plus. apply weighted_nonneg; [exact Nout|]. intros w y I.
    assert (J : In (w, y) (concat (map fst bs))) by (apply (Permutation_in _ Pe), I). apply in_concat in J as (q & Iq & J). apply in_map_iff in Iq as ([q' k] & Eq & Iq). cbn [fst] in Eq. subst q'.
    destruct (Hs q k w y Iq J) as (S1 & S2 & S3). apply in_at_points in I as [I Oy]. unfold out in Oy.
    unfold B1, B2, B4, flux_at, K. rewrite Oy, S1, S2. fold (nx m y). fold (ny m y). apply (outer_energy k (normal m y)); [now apply (unit_at m r Pm w)|exact S3|apply (We y)|apply (We y)]. }
  assert (Inner : - / 2 * weighted (at_points (fun y => negb (out y)) (r_cbnd r)) B5 <=
    - / 2 * weighted (at_points (fun y => negb (out y)) (r_cbnd r)) B1 + weighted (at_points (fun y => negb (out y)) (r_cbnd r)) B2 + -1 * weighted (at_points (fun y => negb (out y)) (r_cbnd r)) B3).
  { rewrite <- !weighted_scale, <- !weighted_plus. apply weighted_le; [exact Nin|]. intros w y I. apply in_at_points in I as [I _].
    pose proof (unit_at m r Pm w y I) as [_ N]. unfold B1, B2, B3, B5, flux_at. rewrite !rate_energy, !form_waves, !flux_energy by (trivial; apply (We y)).
    rewrite <- !total_scale, <- !total_plus.
    assert (TL : forall f h, (forall k, (k < 4)%nat -> f k <= h k) -> total 4 f <= total 4 h).
    { intros f h Hf. cbn [total]. pose proof (Hf 0%nat ltac:(lia)). pose proof (Hf 1%nat ltac:(lia)). pose proof (Hf 2%nat ltac:(lia)). pose proof (Hf 3%nat ltac:(lia)). lra. }
    apply TL. intros k Hk. destruct (dis_bounds (nx m y) (ny m y) k Hk) as [D0 D1].
    pose proof (inner_facet _ _ (Am (nx m y) (ny m y) k (tV e y)) (Am (nx m y) (ny m y) k (tVhat e y)) D0 D1) as F. apply (Rmult_le_compat_l _ _ _ (wt_nonneg k)) in F. lra. }
  assert (Twin : weighted (at_points (fun y => negb (out y)) (r_cbnd r)) B5 = 0).
  { destruct Tw as [Pt Op]. fold out in Pt, Op. change (at_points (fun y => negb (outer_facet m (facet m y))) (r_cbnd r)) with (at_points (fun y => negb (out y)) (r_cbnd r)) in Pt, Op.
    assert (A : weighted (at_points (fun y => negb (out y)) (r_cbnd r)) (fun y => B5 (twin y)) = -1 * weighted (at_points (fun y => negb (out y)) (r_cbnd r)) B5).
    { rewrite <- weighted_scale. apply weighted_ext. intros w y I. pose proof (Op w y I) as On. apply in_at_points in I as [I _]. destruct (unit_at m r Pm w y I) as [Ey _]. unfold B5. rewrite Sv.
      assert (X : nx m (twin y) = - nx m y /\ ny m (twin y) = - ny m y). { unfold nx, ny at 2. unfold ny. rewrite On, Ey. split; reflexivity. }
      destruct X as [-> ->]. rewrite (rate_linear (- nx m y) (- ny m y)), (rate_linear (nx m y) (ny m y)). ring. }
    rewrite <- weighted_map, (weighted_permutation _ _ B5 Pt) in A. lra. }
  rewrite Twin in Inner. lra.
Qed.
End Estimate.
