(** The forms linearised at a uniform flow. *)
From Coq Require Import Reals String List Arith Bool Lia Lra Permutation.
From Coquelicot Require Import Coquelicot.
From Verif Require Import Base M_Bla M_Flow M_Formulation M_Weak S_Flow S_Chars S_Formulation S_Weak S_March S_Small L_Flow L_Formulation L_Weak P_Eos P_Chars P_Jacobian P_Split P_Riemann P_Boundary L_Small L_Curve L_Rate.
From Verif Require Import S_Formulation.
Import ListNotations.
Open Scope R_scope.
Open Scope list_scope.

Lemma wave_sum P Q l l' v i : inverse 4 P Q -> length v = 4%nat -> (i < 4)%nat -> (forall k, (k < 4)%nat -> l k + l' k = 1) ->
  nth i (mvmul (wave P Q l) v) 0 + nth i (mvmul (wave P Q l') v) 0 = nth i v 0.
Proof.
  intros Inv Lv I E.
  assert (S1 : vadd (mvmul (wave P Q l) v) (mvmul (wave P Q l') v) = v).
  { apply (same_amplitudes P Q); [exact Inv|rewrite vadd_length, !mvmul_length; reflexivity|exact Lv|].
    intros k K. rewrite amplitude_vadd by (rewrite !mvmul_length; reflexivity). rewrite !wave_amplitude by assumption. rewrite <- Rmult_plus_distr_r, E by exact K. ring. }
  rewrite <- S1 at 3. rewrite vadd_nth by (rewrite !mvmul_length; reflexivity). reflexivity.
Qed.

Lemma selected_sum x : x <> 0 -> selected Outgoing x + selected Incoming x = 1.
Proof. intros N. unfold selected. repeat match goal with |- context [Rlt_dec ?a ?b] => destruct (Rlt_dec a b) end; lra. Qed.

Lemma mvmul_minus M a b i : shape 4 M -> length a = 4%nat -> length b = 4%nat -> (i < 4)%nat -> nth i (mvmul M (vsub a b)) 0 = nth i (mvmul M a) 0 - nth i (mvmul M b) 0.
Proof.
  intros (R1 & C1 & _) La Lb I. rewrite !mvmul_total by lia. rewrite C1. cbn [total]. rewrite !vsub_nth by congruence. ring.
Qed.

Section Linear.
Variables (s : settings) (st : state) (ux uy : R).
Hypothesis G : 1 < s_gamma s.
Hypothesis V : valid st.
Hypothesis Eu : st_u st = [ux; uy].
Hypothesis D2 : s_dim s = 2%nat.
Let g := s_gamma s.
Let c := q_c g st.
Let base := conservative_list g st.

(** The matrices at the uniform flow. *)
Definition wave0 (n0 n1 : R) (l : nat -> R) : matrix := wave (PP (s_gamma s) (st_rho st) ux uy (q_c (s_gamma s) st) n0 n1) (QQ (s_gamma s) (st_rho st) ux uy (q_c (s_gamma s) st) n0 n1) l.
Definition lam0 (n0 n1 : R) (k : nat) : R := wave_speed (ux * n0 + uy * n1) (q_c (s_gamma s) st) k.
Definition dis0 (n0 n1 : R) (k : nat) : R := dissipation (s_riemann s) (ux * n0 + uy * n1) (q_c (s_gamma s) st) k.

Definition flux_change (n0 n1 : R) (vU vH : list R) : list R :=
  four_list (fun i => total 2 (fun j => flux_rate (s_gamma s) st vH i j * nth j [n0; n1] 0) + nth i (mvmul (wave0 n0 n1 (dis0 n0 n1)) (vsub vU vH)) 0).
Definition far_change (b : bool) (n0 n1 : R) (vU vH : list R) : list R :=
  four_list (fun i => if b then nth i vH 0 - nth i (mvmul (wave0 n0 n1 (fun k => selected Outgoing (lam0 n0 n1 k))) vU) 0
    else nth i (mvmul (wave0 n0 n1 (fun k => part Outgoing (lam0 n0 n1 k))) (vsub vH vU)) 0 - nth i (mvmul (wave0 n0 n1 (fun k => part Incoming (lam0 n0 n1 k))) vH) 0).
Definition slip_list (n0 n1 : R) (v : list R) : list R :=
  [nth 0 v 0; nth 1 v 0 - (nth 1 v 0 * n0 + nth 2 v 0 * n1) * n0; nth 2 v 0 - (nth 1 v 0 * n0 + nth 2 v 0 * n1) * n1; nth 3 v 0].
Definition slip_change (n0 n1 : R) (vU vH : list R) : list R := four_list (fun i => nth i vH 0 - nth i (slip_list n0 n1 vU) 0).

Section Two.
Variables (U H : R -> list R) (vU vH : list R) (n0 n1 : R) (n : list R).
Hypothesis U0 : U 0 = conservative_list (s_gamma s) st.
Hypothesis H0 : H 0 = conservative_list (s_gamma s) st.
Hypothesis LU : forall e, length (U e) = 4%nat.
Hypothesis LH : forall e, length (H e) = 4%nat.
Hypothesis DU : forall k, (k < 4)%nat -> is_derive (fun e => nth k (U e) 0) 0 (nth k vU 0).
Hypothesis DH : forall k, (k < 4)%nat -> is_derive (fun e => nth k (H e) 0) 0 (nth k vH 0).
Hypothesis LvU : length vU = 4%nat.
Hypothesis LvH : length vH = 4%nat.
Hypothesis N : unit2 n n0 n1.

Let St e := state_at s H e.
Let Wv (e : R) (l : nat -> R) := wave (Pe s H n0 n1 e) (Qe s H n0 n1 e) l.

Lemma Pe_0 : Pe s H n0 n1 0 = PP g (st_rho st) ux uy c n0 n1.
Proof. unfold Pe. rewrite (cr_0 s st ux uy H G V Eu H0), (cx_0 s st ux uy H G V Eu H0), (cy_0 s st ux uy H G V Eu H0), (cc_0 s st ux uy H G V Eu H0). reflexivity. Qed.
Lemma Qe_0 : Qe s H n0 n1 0 = QQ g (st_rho st) ux uy c n0 n1.
Proof. unfold Qe. rewrite (cr_0 s st ux uy H G V Eu H0), (cx_0 s st ux uy H G V Eu H0), (cy_0 s st ux uy H G V Eu H0), (cc_0 s st ux uy H G V Eu H0). reflexivity. Qed.

(** A wave matrix times a difference that vanishes at first. *)
Lemma wave_derive (l : R -> nat -> R) (w : R -> list R) v i : (i < 4)%nat -> (forall k, (k < 4)%nat -> cont (fun e => l e k)) ->
  (forall j, (j < 4)%nat -> nth j (w 0) 0 = 0 /\ is_derive (fun e => nth j (w e) 0) 0 (nth j v 0)) ->
  is_derive (fun e => nth i (mvmul (Wv e (l e)) (w e)) 0) 0 (nth i (mvmul (wave0 n0 n1 (l 0)) v) 0).
Proof.
  intros I L D. unfold wave0. fold g. fold c. rewrite <- Pe_0, <- Qe_0.
  apply (matrix_derives (fun e => Wv e (l e)) w v i); [intros; apply wave_shape|exact I| |exact D].
  intros j J. apply (wave_cont s st ux uy H vH G V Eu D2 H0 DH n0 n1 l i j L I J).
Qed.

Lemma difference_derive (a b : R -> list R) va vb j : (forall e, length (a e) = 4%nat) -> (forall e, length (b e) = 4%nat) -> length va = 4%nat -> length vb = 4%nat ->
  is_derive (fun e => nth j (a e) 0) 0 (nth j va 0) -> is_derive (fun e => nth j (b e) 0) 0 (nth j vb 0) ->
  is_derive (fun e => nth j (vsub (a e) (b e)) 0) 0 (nth j (vsub va vb) 0).
Proof.
  intros La Lb Lva Lvb Da Db. apply (is_derive_ext (fun e => nth j (a e) 0 - nth j (b e) 0)); [intros e; rewrite vsub_nth by (rewrite La, Lb; reflexivity); reflexivity|].
  rewrite vsub_nth by congruence. apply @is_derive_minus; assumption.
Qed.

Lemma flux_vderives : vderives 4 (fun e => get_convective_numerical_flux s (U e) (H e) n) (flux_change n0 n1 vU vH).
Proof.
  apply (vderives_make 4 _ (fun e => four_list (fun i => normal_flux g (St e) n i + nth i (mvmul (Wv e (dissipation (s_riemann s) (une H n0 n1 e) (cc s H e))) (vsub (U e) (H e))) 0))).
  - generalize (near_state s st ux uy H vH G V Eu D2 H0 LH DH). apply filter_imp. intros e [Va Ec].
    rewrite <- Ec at 1. rewrite (flux_value s (St e) (cx H e) (cy H e) n0 n1 n G Va eq_refl D2 N). unfold St. rewrite Ec. reflexivity.
  - reflexivity.
  - reflexivity.
  - intros i I. unfold flux_change. rewrite four_list_nth by exact I.
    apply (is_derive_ext (fun e => normal_flux g (St e) n i + nth i (mvmul (Wv e (dissipation (s_riemann s) (une H n0 n1 e) (cc s H e))) (vsub (U e) (H e))) 0)); [intros e; symmetry; now apply four_list_nth|].
    apply @is_derive_plus.
    + destruct N as [-> _]. unfold normal_flux.
      apply (derives_total 2 (fun j e => euler_flux g 2 (St e) i j * nth j [n0; n1] 0) (fun j => flux_rate g st vH i j * nth j [n0; n1] 0)). intros j J.
      pose proof (flux_derive s st ux uy H vH G V Eu D2 H0 DH i j I J) as D.
      evar_last; [apply (is_derive_mult (fun e => euler_flux g 2 (St e) i j) (fun _ => nth j [n0; n1] 0) 0 _ 0 D); [apply @is_derive_const|intros; apply Rmult_comm]|].
      change (@eq R (flux_rate g st vH i j * nth j [n0; n1] 0 + euler_flux g 2 (St 0) i j * 0) (flux_rate g st vH i j * nth j [n0; n1] 0)). ring.
    + evar_last; [apply (wave_derive (fun e => dissipation (s_riemann s) (une H n0 n1 e) (cc s H e)) (fun e => vsub (U e) (H e)) (vsub vU vH) i I)|].
      * intros k K. apply (dissipation_cont s st ux uy H vH G V Eu D2 H0 DH n0 n1).
      * intros j J. split; [rewrite U0, H0, vsub_nth by reflexivity; ring|]. apply difference_derive; auto.
      * cbv beta. unfold dis0. rewrite (une_0 s st ux uy H G V Eu H0), (cc_0 s st ux uy H G V Eu H0). reflexivity.
Qed.

Lemma far_vderives b fields : conservative_vector s fields = Ok base -> (forall k, (k < 4)%nat -> lam0 n0 n1 k <> 0) ->
  vderives 4 (fun e => farfield_residual s fields b (U e) (H e) n) (far_change b n0 n1 vU vH).
Proof.
  intros Ef NZ. assert (Lb : length base = 4%nat) by (unfold base; rewrite conservative_list_length, Eu; reflexivity).
  set (sel := fun k => selected Outgoing (lam0 n0 n1 k)).
  set (lame := fun e k => wave_speed (une H n0 n1 e) (cc s H e) k).
  assert (L0 : forall k, lame 0 k = lam0 n0 n1 k) by (intros k; unfold lame, lam0; rewrite (une_0 s st ux uy H G V Eu H0), (cc_0 s st ux uy H G V Eu H0); reflexivity).
  assert (Near : locally 0 (fun e => forall k, (k < 4)%nat -> selected Outgoing (lame e k) = sel k /\ selected Incoming (lame e k) = 1 - sel k)).
  { assert (K : forall k, (k < 4)%nat -> locally 0 (fun e => selected Outgoing (lame e k) = sel k /\ selected Incoming (lame e k) = 1 - sel k)).
    { intros k K. assert (Z : wave_speed (une H n0 n1 0) (cc s H 0) k <> 0) by (fold (lame 0 k); rewrite L0; apply NZ, K).
      generalize (filter_and _ _ (selected_near s st ux uy H vH G V Eu D2 H0 DH n0 n1 Outgoing k Z) (selected_near s st ux uy H vH G V Eu D2 H0 DH n0 n1 Incoming k Z)).
      apply filter_imp. fold (lame 0 k). rewrite L0. intros e [E1 E2]. fold (lame e k) in E1, E2. rewrite <- E1, <- E2. pose proof (selected_sum _ (NZ k K)). fold (sel k) in *. split; [reflexivity|]. lra. }
    assert (K0 := K 0%nat ltac:(lia)). assert (K1 := K 1%nat ltac:(lia)). assert (K2 := K 2%nat ltac:(lia)). assert (K3 := K 3%nat ltac:(lia)).
    generalize (filter_and _ _ (filter_and _ _ K0 K1) (filter_and _ _ K2 K3)). apply filter_imp.
    intros e ((E0 & E1) & (E2 & E3)) k Hk. four k Hk; assumption. }
  apply (vderives_make 4 _ (fun e => four_list (fun i => if b then (nth i (H e) 0 - nth i base 0) - nth i (mvmul (Wv e sel) (vsub (U e) base)) 0
    else nth i (mvmul (Wv e (fun k => part Outgoing (lame e k))) (vsub (H e) (U e))) 0 - nth i (mvmul (Wv e (fun k => part Incoming (lame e k))) (vsub (H e) base)) 0))).
  - generalize (filter_and _ _ Near (near_state s st ux uy H vH G V Eu D2 H0 LH DH)). apply filter_imp. intros e [Sel [Va Ec]].
    assert (FV := farfield_value s (state_at s H e) (cx H e) (cy H e) n0 n1 n G Va eq_refl D2 N b fields base (U e) Ef Lb (LU e)). rewrite Ec in FV. rewrite FV. clear FV. f_equal. fold g.
    change (wave_speed (cx H e * n0 + cy H e * n1) (q_c g (state_at s H e))) with (lame e). change (PP g (st_rho (state_at s H e)) (cx H e) (cy H e) (q_c g (state_at s H e)) n0 n1) with (Pe s H n0 n1 e).
    change (QQ g (st_rho (state_at s H e)) (cx H e) (cy H e) (q_c g (state_at s H e)) n0 n1) with (Qe s H n0 n1 e).
    assert (Inv : inverse 4 (Pe s H n0 n1 e) (Qe s H n0 n1 e)) by exact (proj1 (state_matrices s (St e) (cx H e) (cy H e) n0 n1 n G Va eq_refl N)).
    destruct b.
    + rewrite (wave_same _ _ (fun k => selected Outgoing (lame e k)) sel (U e)) by (intros k K; apply Sel, K).
      rewrite (wave_same _ _ (fun k => selected Incoming (lame e k)) (fun k => 1 - sel k) base) by (intros k K; apply Sel, K).
      rewrite (four_list_make (vsub _ _)) by (rewrite !vsub_length, LH, !mvmul_length; reflexivity).
      assert (X : forall i, (i < 4)%nat -> nth i (vsub (vsub (H e) (mvmul (wave (Pe s H n0 n1 e) (Qe s H n0 n1 e) sel) (U e))) (mvmul (wave (Pe s H n0 n1 e) (Qe s H n0 n1 e) (fun k => 1 - sel k)) base)) 0
        = (nth i (H e) 0 - nth i base 0) - nth i (mvmul (Wv e sel) (vsub (U e) base)) 0).
      { intros i I. rewrite !vsub_nth by (rewrite ?vsub_length, ?LH, ?mvmul_length; reflexivity). unfold Wv. rewrite mvmul_minus by (trivial; apply wave_shape || apply LU).
        pose proof (wave_sum _ _ sel (fun k => 1 - sel k) base i Inv Lb I (fun k _ => Rplus_minus (sel k) 1)). lra. }
      unfold four_list. rewrite !X by lia. reflexivity.
    + rewrite (four_list_make (vsub _ _)) by (rewrite !vsub_length, !mvmul_length; reflexivity).
      unfold four_list. rewrite !vsub_nth by (rewrite !mvmul_length; reflexivity). reflexivity.
  - reflexivity.
  - reflexivity.
  - intros i I. unfold far_change. rewrite four_list_nth by exact I.
    eapply is_derive_ext; [intros e; symmetry; rewrite four_list_nth by exact I; reflexivity|]. destruct b.
    + apply @is_derive_minus.
      * evar_last; [apply @is_derive_minus; [apply DH, I|apply @is_derive_const]|]. change (@eq R (nth i vH 0 - 0) (nth i vH 0)). ring.
      * apply (wave_derive (fun _ => sel) (fun e => vsub (U e) base) vU i I); [intros; apply cconst|].
        intros j J. split; [rewrite U0; fold g; fold base; rewrite vsub_nth by reflexivity; ring|].
        apply (is_derive_ext (fun e => nth j (U e) 0 - nth j base 0)); [intros e; rewrite vsub_nth by (rewrite LU, Lb; reflexivity); reflexivity|].
        evar_last; [apply @is_derive_minus; [apply DU, J|apply @is_derive_const]|]. change (@eq R (nth j vU 0 - 0) (nth j vU 0)). ring.
    + apply @is_derive_minus.
      * evar_last; [apply (wave_derive (fun e k => part Outgoing (lame e k)) (fun e => vsub (H e) (U e)) (vsub vH vU) i I)|].
        -- intros k K. apply (part_cont s st ux uy H vH G V Eu D2 H0 DH n0 n1 Outgoing k).
        -- intros j J. split; [rewrite U0, H0, vsub_nth by reflexivity; ring|]. apply difference_derive; auto.
        -- cbv beta. unfold wave0. rewrite (wave_same _ _ (fun k => part Outgoing (lame 0 k)) (fun k => part Outgoing (lam0 n0 n1 k))) by (intros k _; now rewrite L0). reflexivity.
      * evar_last; [apply (wave_derive (fun e k => part Incoming (lame e k)) (fun e => vsub (H e) base) vH i I)|].
        -- intros k K. apply (part_cont s st ux uy H vH G V Eu D2 H0 DH n0 n1 Incoming k).
        -- intros j J. split; [rewrite H0; fold g; fold base; rewrite vsub_nth by reflexivity; ring|].
           apply (is_derive_ext (fun e => nth j (H e) 0 - nth j base 0)); [intros e; rewrite vsub_nth by (rewrite LH, Lb; reflexivity); reflexivity|].
           evar_last; [apply @is_derive_minus; [apply DH, J|apply @is_derive_const]|]. change (@eq R (nth j vH 0 - 0) (nth j vH 0)). ring.
        -- cbv beta. unfold wave0. rewrite (wave_same _ _ (fun k => part Incoming (lame 0 k)) (fun k => part Incoming (lam0 n0 n1 k))) by (intros k _; now rewrite L0). reflexivity.
Qed.

Lemma wall_vderives : vderives 4 (fun e => inviscid_wall_residual s (U e) (H e) n) (slip_change n0 n1 vU vH).
Proof.
  apply (vderives_make 4 _ (fun e => four_list (fun i => nth i (H e) 0 - nth i (slip_list n0 n1 (U e)) 0))).
  - apply filter_forall. intros e. unfold inviscid_wall_residual, inviscid_wall_state. destruct (fields_values s (U e)) as (F & -> & F1 & F2 & F3). cbn [bind].
    rewrite D2 in F2, F3. unfold density, eos_density, momentum, energy. rewrite F1, F2, F3. cbn [equation bind]. f_equal. destruct N as [-> _].
    pose proof (LU e) as L. destruct (U e) as [|a0 [|a1 [|a2 [|a3 [|a4 q]]]]]; try discriminate L. pose proof (LH e) as L'. destruct (H e) as [|b0 [|b1 [|b2 [|b3 [|b4 q]]]]]; try discriminate L'.
    unfold four_list, slip_list. cbn -[Rplus Rmult Rminus]. rewrite !Rplus_0_r. reflexivity.
  - reflexivity.
  - reflexivity.
  - intros i I. unfold slip_change. rewrite four_list_nth by exact I. eapply is_derive_ext; [intros e; symmetry; rewrite four_list_nth by exact I; reflexivity|].
    apply @is_derive_minus; [apply DH, I|].
    assert (M : forall k d, (k < 4)%nat -> is_derive (fun e => nth k (U e) 0 - (nth 1 (U e) 0 * n0 + nth 2 (U e) 0 * n1) * d) 0 (nth k vU 0 - (nth 1 vU 0 * n0 + nth 2 vU 0 * n1) * d)).
    { intros k d K. apply @is_derive_minus; [apply DU, K|].
      assert (Sc : forall (f : R -> R) a b, is_derive f 0 a -> is_derive (fun e => f e * b) 0 (a * b)).
      { intros f a b Df. apply (is_derive_ext (fun e => b * f e)); [intros; apply Rmult_comm|]. rewrite Rmult_comm. apply is_derive_scal. exact Df. }
      apply Sc. apply @is_derive_plus; apply Sc; apply DU; lia. }
    four i I; cbn [slip_list nth]; [apply DU; lia|apply (M 1%nat); lia|apply (M 2%nat); lia|apply DU; lia].
Qed.

Lemma sponge_vderives fields sg : conservative_vector s fields = Ok base -> vderives 4 (fun e => sponge_residual s fields sg (U e)) (vscale sg vU).
Proof.
  intros Ef. assert (Lb : length base = 4%nat) by (unfold base; rewrite conservative_list_length, Eu; reflexivity).
  apply (vderives_make 4 _ (fun e => vscale sg (vsub (U e) base))).
  - apply filter_forall. intros e. unfold sponge_residual. rewrite Ef. reflexivity.
  - intros e. rewrite vscale_length, vsub_length, LU, Lb. reflexivity.
  - rewrite vscale_length. exact LvU.
  - intros i I. rewrite vscale_nth. apply (is_derive_ext (fun e => sg * (nth i (U e) 0 - nth i base 0))); [intros e; rewrite vscale_nth, vsub_nth by (rewrite LU, Lb; reflexivity); reflexivity|].
    apply is_derive_scal. evar_last; [apply @is_derive_minus; [apply DU, I|apply @is_derive_const]|]. change (@eq R (nth i vU 0 - 0) (nth i vU 0)). ring.
Qed.

(** The flux in the elements. *)
Lemma volume_vderives : vderives 8 (fun e => let* F := (let* V := get_conservative_fields s (H e) in get_convective_flux s false V) in Ok (entries F)) (entries (tabulate 4 2 (flux_rate g st vH))).
Proof.
  apply (vderives_make 8 _ (fun e => entries (tabulate 4 2 (euler_flux g 2 (St e))))).
  - generalize (near_state s st ux uy H vH G V Eu D2 H0 LH DH). apply filter_imp. intros e [Va Ec].
    destruct (flux_entries s (state_at s H e) (cx H e) (cy H e) G Va eq_refl) as (F & EF & R1 & C1 & L1 & E).
    pose proof (fields4 s (state_at s H e) (cx H e) (cy H e) G Va eq_refl D2) as FF. rewrite Ec in FF. rewrite FF. cbn [bind]. rewrite EF. cbn [bind]. f_equal.
    apply (nth_ext _ _ 0 0); [rewrite L1; reflexivity|]. rewrite L1. intros k K.
    assert (X : forall i j, (i < 4)%nat -> (j < 2)%nat -> nth (i * 2 + j) (entries F) 0 = nth (i * 2 + j) (entries (tabulate 4 2 (euler_flux g 2 (St e)))) 0).
    { intros i j I J. change (nth (i * 2 + j) (entries (tabulate 4 2 (euler_flux g 2 (St e)))) 0) with (entry (tabulate 4 2 (euler_flux g 2 (St e))) i j). rewrite entry_tabulate by assumption.
      transitivity (entry F i j); [unfold entry; now rewrite C1|exact (E i j I J)]. }
    replace k with (k / 2 * 2 + k mod 2)%nat by (pose proof (Nat.div_mod k 2); lia). apply X; [apply Nat.div_lt_upper_bound; lia|apply Nat.mod_upper_bound; lia].
  - intros e. reflexivity.
  - reflexivity.
  - intros k K.
    assert (X : forall i j, (i < 4)%nat -> (j < 2)%nat -> is_derive (fun e => nth (i * 2 + j) (entries (tabulate 4 2 (euler_flux g 2 (St e)))) 0) 0 (nth (i * 2 + j) (entries (tabulate 4 2 (flux_rate g st vH))) 0)).
    { intros i j I J. change (nth (i * 2 + j) (entries (tabulate 4 2 (flux_rate g st vH))) 0) with (entry (tabulate 4 2 (flux_rate g st vH)) i j). rewrite entry_tabulate by assumption.
      apply (is_derive_ext (fun e => euler_flux g 2 (St e) i j)); [|apply (flux_derive s st ux uy H vH G V Eu D2 H0 DH i j I J)].
      intros e. symmetry. change (nth (i * 2 + j) (entries (tabulate 4 2 (euler_flux g 2 (St e)))) 0) with (entry (tabulate 4 2 (euler_flux g 2 (St e))) i j). now rewrite entry_tabulate. }
    replace k with (k / 2 * 2 + k mod 2)%nat by (pose proof (Nat.div_mod k 2); lia). apply X; [apply Nat.div_lt_upper_bound; lia|apply Nat.mod_upper_bound; lia].
Qed.
End Two.
End Linear.
