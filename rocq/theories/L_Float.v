(** Lemmas about the float model of the timer. *)
From Coq Require Import QArith Qreals Qabs Reals ZArith Lia Lra List Bool SpecFloat.
From Flocq Require Import Core.Core Calc.Div Calc.Bracket IEEE754.BinarySingleNaN.
From Flocq Require Import Relative.
From Verif Require Import Base M_Timer S_Timer L_Timer M_Float S_Float.
Import ListNotations.
Local Open Scope R_scope.

Definition fl (x : R) : R := round radix2 (FLT_exp (-1074) 53) ZnearestE x.
Definition u : R := / 9007199254740992.

Lemma u_bpow : u = / 2 * bpow radix2 (-53 + 1).
Proof. unfold u. change (bpow radix2 (-53 + 1)) with (/ IZR (Z.pow_pos 2 52)).
  replace (IZR (Z.pow_pos 2 52)) with 4503599627370496 by (vm_compute; reflexivity). lra. Qed.

Definition eta : R := / 2 * bpow radix2 (-1074).

Lemma eta_small : 0 < eta <= / 1000000000000000000000000000000000000000000000000000000000000.
Proof.
  unfold eta. split.
  - apply Rmult_lt_0_compat; [lra|apply bpow_gt_0].
  - apply Rle_trans with (bpow radix2 (-1074)).
    + generalize (bpow_gt_0 radix2 (-1074)). lra.
    + apply Rle_trans with (bpow radix2 (-200)).
      * apply bpow_le. lia.
      * change (bpow radix2 (-200)) with (/ IZR (Z.pow_pos 2 200)).
        apply Rinv_le; [lra|]. apply IZR_le. vm_compute. discriminate.
Qed.

Lemma prec53 : Prec_gt_0 53. Proof. reflexivity. Qed.
#[local] Existing Instance prec53.

Lemma fl_error : forall x, Rabs (fl x - x) <= u * Rabs x + eta.
Proof.
  intro x. unfold fl.
  destruct (error_N_FLT radix2 (-1074) 53 eq_refl (fun z => negb (Z.even z)) x)
    as (e1 & e2 & H1 & H2 & _ & E).
  rewrite E.
  replace (x * (1 + e1) + e2 - x) with (x * e1 + e2) by ring.
  eapply Rle_trans; [apply Rabs_triang|]. rewrite Rabs_mult, u_bpow. unfold eta.
  apply Rplus_le_compat; [|exact H2].
  rewrite Rmult_comm. apply Rmult_le_compat_r; [apply Rabs_pos|exact H1].
Qed.

Lemma fl_mono : forall x y, x <= y -> fl x <= fl y.
Proof. intros. apply round_le; [apply FLT_exp_valid; exact prec53 | apply valid_rnd_N | assumption]. Qed.

Lemma fl_B2R : forall x : double, fl (B2R x) = B2R x.
Proof.
  intro x. apply round_generic; [apply valid_rnd_N|].
  apply (generic_format_B2R 53 1024 x).
Qed.

Definition big : R := bpow radix2 1000.

Lemma fl_big : forall x, Rabs x <= big -> Rabs (fl x) < bpow radix2 1024.
Proof.
  intros x H. apply Rle_lt_trans with (bpow radix2 1000).
  - unfold fl. apply abs_round_le_generic; [apply FLT_exp_valid; exact prec53 | apply valid_rnd_N | | exact H].
    apply generic_format_bpow. unfold FLT_exp. lia.
  - apply bpow_lt. lia.
Qed.

Lemma big_large : 1000000000000000000000000000000000000000000000000000000000000 <= big.
Proof.
  unfold big. apply Rle_trans with (bpow radix2 250).
  - change (bpow radix2 250) with (IZR (Z.pow_pos 2 250)). apply IZR_le. vm_compute. discriminate.
  - apply bpow_le. lia.
Qed.

Lemma fadd_ok : forall x y : double, is_finite x = true -> is_finite y = true ->
  Rabs (B2R x + B2R y) <= big ->
  is_finite (fadd x y) = true /\ B2R (fadd x y) = fl (B2R x + B2R y).
Proof.
  intros x y Fx Fy H. unfold fadd.
  generalize (Bplus_correct 53 1024 prec_positive prec_small mode_NE x y Fx Fy).
  rewrite Rlt_bool_true by (apply (fl_big _ H)).
  intros (E & F & _). split; [exact F|exact E].
Qed.

Lemma fsub_ok : forall x y : double, is_finite x = true -> is_finite y = true ->
  Rabs (B2R x - B2R y) <= big ->
  is_finite (fsub x y) = true /\ B2R (fsub x y) = fl (B2R x - B2R y).
Proof.
  intros x y Fx Fy H. unfold fsub.
  generalize (Bminus_correct 53 1024 prec_positive prec_small mode_NE x y Fx Fy).
  rewrite Rlt_bool_true by (apply (fl_big _ H)).
  intros (E & F & _). split; [exact F|exact E].
Qed.

Lemma fmul_ok : forall x y : double, is_finite x = true -> is_finite y = true ->
  Rabs (B2R x * B2R y) <= big ->
  is_finite (fmul x y) = true /\ B2R (fmul x y) = fl (B2R x * B2R y).
Proof.
  intros x y Fx Fy H. unfold fmul.
  generalize (Bmult_correct 53 1024 prec_positive prec_small mode_NE x y).
  rewrite Rlt_bool_true by (apply (fl_big _ H)).
  intros (E & F & _). rewrite Fx, Fy in F. split; [exact F|exact E].
Qed.

Lemma fdiv_ok : forall x y : double, is_finite x = true -> is_finite y = true ->
  B2R y <> 0 -> Rabs (B2R x / B2R y) <= big ->
  exists q, fdiv x y = Ok q /\ is_finite q = true /\ B2R q = fl (B2R x / B2R y).
Proof.
  intros x y Fx Fy N H. unfold fdiv.
  rewrite (Beqb_correct 53 1024 y fzero Fy eq_refl).
  rewrite Req_bool_false by exact N.
  eexists. split; [reflexivity|].
  generalize (Bdiv_correct 53 1024 prec_positive prec_small mode_NE x y N).
  rewrite Rlt_bool_true by (apply (fl_big _ H)).
  intros (E & F & _). rewrite Fx in F. split; [exact F|exact E].
Qed.

Lemma float_of_int_ok : forall z, Rabs (IZR z) <= big ->
  exists x, float_of_int z = Ok x /\ is_finite x = true /\ B2R x = fl (IZR z).
Proof.
  intros z H. unfold float_of_int.
  generalize (binary_normalize_correct 53 1024 prec_positive prec_small mode_NE z 0 false).
  cbv zeta. replace (F2R (Float radix2 z 0)) with (IZR z) by (unfold F2R; cbn; ring).
  rewrite Rlt_bool_true by (apply (fl_big _ H)).
  set (r := binary_normalize _ _ _ _ _ _ _ _). intros (E & F & _).
  destruct r; try discriminate F; eexists; (split; [reflexivity|split; [exact F|exact E]]).
Qed.

Lemma fl_int : forall z, (Z.abs z <= 2 ^ 53)%Z -> fl (IZR z) = IZR z.
Proof.
  intros z H. unfold fl. apply round_generic; [apply valid_rnd_N|].
  destruct (Z.eq_dec (Z.abs z) (2 ^ 53)) as [E|E].
  - apply generic_format_abs_inv. rewrite <- abs_IZR, E.
    change (IZR (2 ^ 53)) with (bpow radix2 53). apply generic_format_bpow. unfold FLT_exp. lia.
  - apply generic_format_FLT. exists (Float radix2 z 0); cbn [Fnum Fexp].
    + unfold F2R; cbn; ring.
    + change (Zaux.radix_val radix2) with 2%Z. lia.
    + lia.
Qed.

Lemma Q2R_inject_Z : forall z, Q2R (inject_Z z) = IZR z.
Proof. intro z. unfold Q2R, inject_Z. cbn. field. Qed.

Lemma rational_B2R : forall x : double, Q2R (rational x) = B2R x.
Proof.
  intros [s|s| |s m e H]; cbn [rational B2R]; try (unfold Q2R; cbn; ring).
  destruct (Z.leb_spec 0 e) as [L|L].
  - rewrite Q2R_inject_Z, mult_IZR. unfold F2R. cbn [Fnum Fexp].
    f_equal. rewrite <- IZR_Zpower by exact L. reflexivity.
  - unfold Q2R. cbn [Qnum Qden]. rewrite Z2Pos.id by (apply Z.pow_pos_nonneg; lia).
    unfold F2R. cbn [Fnum Fexp]. f_equal.
    replace e with (- - e)%Z at 2 by lia. rewrite bpow_opp. f_equal.
    rewrite <- IZR_Zpower by lia. reflexivity.
Qed.

Lemma py_round_near : forall q z, Rabs (Q2R q - IZR z) < / 2 -> py_round q = z.
Proof.
  intros q z H. generalize (py_round_error q). intro E.
  apply Qabs_Qle_condition in E. destruct E as [E1 E2].
  apply Qle_Rle in E1, E2. rewrite Q2R_minus, Q2R_inject_Z in E1, E2.
  replace (Q2R (1#2)) with (/2) in E2 by (unfold Q2R; cbn; lra).
  replace (Q2R (- (1#2))) with (-/2) in E1 by (unfold Q2R; cbn; lra).
  apply Rabs_def2 in H. destruct H as [H1 H2].
  assert (IZR (py_round q) < IZR z + 1) by lra.
  assert (IZR z - 1 < IZR (py_round q)) by lra.
  rewrite <- plus_IZR in H. rewrite <- minus_IZR in H0.
  apply lt_IZR in H, H0. lia.
Qed.

Lemma nearest_ok : forall (s : bool) (n d : positive),
  let x := (if s then -1 else 1) * (IZR (Zpos n) / IZR (Zpos d)) in
  Rabs x <= big ->
  is_finite (nearest s n d) = true /\ B2R (nearest s n d) = fl x.
Proof.
  intros s n d x H.
  assert (Pn : 0 < IZR (Zpos n)) by (apply IZR_lt; lia).
  assert (Pd : 0 < IZR (Zpos d)) by (apply IZR_lt; lia).
  assert (P : 0 < IZR (Zpos n) / IZR (Zpos d)) by (apply Rdiv_lt_0_compat; assumption).
  unfold nearest.
  generalize (Fdiv_correct (fexp 53 1024) (Float radix2 (Zpos n) 0) (Float radix2 (Zpos d) 0)).
  destruct (Fdiv _ _ _) as [[m e] l].
  replace (F2R (Float radix2 (Zpos n) 0)) with (IZR (Zpos n)) by (unfold F2R; cbn; ring).
  replace (F2R (Float radix2 (Zpos d) 0)) with (IZR (Zpos d)) by (unfold F2R; cbn; ring).
  intro C. destruct (C Pn Pd) as [C1 C2]. clear C.
  assert (Xs : Rlt_bool x 0 = s).
  { unfold x. destruct s; [apply Rlt_bool_true|apply Rlt_bool_false]; lra. }
  assert (Xa : Rabs x = IZR (Zpos n) / IZR (Zpos d)).
  { unfold x. destruct s; [rewrite Rabs_left by lra|rewrite Rabs_pos_eq by lra]; ring. }
  assert (X0 : x <> 0).
  { intro Z. rewrite Z, Rabs_R0 in Xa. lra. }
  generalize (binary_round_aux_correct' 53 1024 prec_positive prec_small mode_NE x m e l X0).
  rewrite Xa at 1. intro B. specialize (B C2).
  assert (Ce : (e <= cexp radix2 (fexp 53 1024) x)%Z).
  { rewrite <- cexp_abs, Xa. exact C1. }
  specialize (B Ce). cbv zeta in B. rewrite Xs in B.
  rewrite Rlt_bool_true in B by (apply (fl_big _ H)).
  destruct B as (V & E & F & _).
  destruct (binary_round_aux 53 1024 mode_NE s m e l) as [z|z| |z m' e']; try discriminate F.
  - split; [reflexivity|exact E].
  - cbn [valid_binary] in V.
    destruct (bool_dec _ _) as [W|W]; [|contradiction].
    split; [reflexivity|exact E].
Qed.

Lemma float_of_rational_ok : forall s q, Rabs (Q2R q) <= big -> literal q (float_of_rational s q).
Proof.
  intros s [n d] H. unfold literal, float_of_rational. cbn [Qnum Qden].
  change (round _ _ _ _) with (fl (Q2R (n # d))).
  destruct n as [|n|n].
  - split; [reflexivity|]. cbn [B2R]. unfold Q2R; cbn. rewrite Rmult_0_l.
    symmetry. apply round_0. apply valid_rnd_N.
  - replace (Q2R (Zpos n # d)) with (1 * (IZR (Zpos n) / IZR (Zpos d))) in * by (unfold Q2R, Rdiv; cbn; ring).
    apply (nearest_ok false n d H).
  - replace (Q2R (Zneg n # d)) with (-1 * (IZR (Zpos n) / IZR (Zpos d))) in *.
    + apply (nearest_ok true n d H).
    + unfold Q2R, Rdiv; cbn. rewrite <- (Pos2Z.opp_pos n), opp_IZR. ring.
Qed.

Lemma literal_comp : forall p q x, (p == q)%Q -> literal p x -> literal q x.
Proof. intros p q x E [F L]. split; [exact F|]. rewrite L. now rewrite (Qeq_eqR _ _ E). Qed.

Lemma literal_error : forall q x, literal q x -> Rabs (B2R x - Q2R q) <= u * Rabs (Q2R q) + eta.
Proof. intros q x [_ ->]. apply fl_error. Qed.

Definition ten (d : nat) : R := IZR (10 ^ Z.of_nat d).

Lemma ten_pow10 : forall d, Q2R (pow10 d) = ten d.
Proof. intro d. unfold pow10, ten. apply Q2R_inject_Z. Qed.

Lemma ten_pos : forall d, 1 <= ten d.
Proof.
  intro d. unfold ten. apply IZR_le. 
  assert (0 < 10 ^ Z.of_nat d)%Z by (apply Z.pow_pos_nonneg; lia). lia.
Qed.

Lemma ten_16 : forall d, (d <= 16)%nat -> ten d <= 10000000000000000.
Proof.
  intros d H. unfold ten. apply IZR_le.
  change 10000000000000000%Z with (10 ^ 16)%Z. apply Z.pow_le_mono_r; lia.
Qed.

Lemma label_ok : forall (x : double) d tau, is_finite x = true -> has_decimals d tau ->
  Rabs (B2R x - Q2R tau) * ten d < / 2 -> Rabs (Q2R tau) <= big ->
  exists lab, float_round_digits x d = Ok lab /\ literal tau lab.
Proof.
  intros x d tau F [z Z] H Bt.
  assert (R : py_round (rational x * pow10 d) = z).
  { apply py_round_near. rewrite Q2R_mult, rational_B2R, ten_pow10.
    apply Qeq_eqR in Z. rewrite Q2R_mult, !Q2R_inject_Z in Z. change (IZR (10 ^ Z.of_nat d)) with (ten d) in Z.
    rewrite <- Z. replace (B2R x * ten d - Q2R tau * ten d) with ((B2R x - Q2R tau) * ten d) by ring.
    rewrite Rabs_mult, (Rabs_pos_eq (ten d)); [exact H|]. generalize (ten_pos d). lra. }
  assert (E : (py_round_digits (rational x) d == tau)%Q).
  { unfold py_round_digits. rewrite R. rewrite <- Z. change (inject_Z (10 ^ Z.of_nat d)) with (pow10 d).
    field. intro K. generalize (pow10_pos d). rewrite K. apply Qlt_irrefl. }
  assert (L : forall s, literal tau (float_of_rational s (py_round_digits (rational x) d))).
  { intro s. apply (literal_comp _ _ _ E). apply float_of_rational_ok. now rewrite (Qeq_eqR _ _ E). }
  specialize (L (Bsign x)).
  exists (float_of_rational (Bsign x) (py_round_digits (rational x) d)). split; [|exact L].
  destruct L as [Lf _].
  unfold float_round_digits.
  destruct x; try discriminate F; (destruct (float_of_rational _ _); [reflexivity|discriminate Lf|reflexivity|reflexivity]).
Qed.

Lemma label_exists : forall (x : double) d, is_finite x = true -> Rabs (B2R x) <= 1000000000000000000 ->
  exists lab, float_round_digits x d = Ok lab.
Proof.
  intros x d F H.
  assert (G : Rabs (Q2R (py_round_digits (rational x) d)) <= big).
  { generalize (py_round_digits_error (rational x) d). intro E.
    apply Qabs_Qle_condition in E. destruct E as [E1 E2]. apply Qle_Rle in E1, E2.
    rewrite Q2R_opp in E1. rewrite Q2R_minus, rational_B2R in E1, E2.
    assert (K : Q2R ((1#2) / pow10 d) <= / 2).
    { unfold Qdiv. rewrite Q2R_mult, Q2R_inv.
      - rewrite ten_pow10.
        replace (Q2R (1#2)) with (/2) by (unfold Q2R; cbn; lra).
        rewrite <- (Rmult_1_r (/2)) at 2. apply Rmult_le_compat_l; [lra|].
        rewrite <- Rinv_1. apply Rinv_le; [lra|apply ten_pos].
      - intro K. generalize (pow10_pos d). rewrite K. apply Qlt_irrefl. }
    apply Rabs_le. apply Rabs_le_inv in H. generalize big_large. lra. }
  unfold float_round_digits.
  destruct x as [s|s| |s m e Hb]; try discriminate F;
    (match goal with |- exists lab, match float_of_rational ?s ?q with _ => _ end = _ =>
      destruct (float_of_rational_ok s q G) as [Lf _]; destruct (float_of_rational s q) end;
     [eexists; reflexivity|discriminate Lf|eexists; reflexivity|eexists; reflexivity]).
Qed.

(** Decimals of a step below one half. *)
Lemma half_ulp : forall x, 0 < x < / 2 -> Rabs (fl x - x) <= / 36028797018963968.
Proof.
  intros x [P L]. unfold fl.
  eapply Rle_trans; [apply error_le_half_ulp; apply FLT_exp_valid; exact prec53|].
  rewrite ulp_neq_0 by lra.
  apply Rle_trans with (/ 2 * bpow radix2 (-54)).
  - apply Rmult_le_compat_l; [lra|]. apply bpow_le. unfold cexp.
    assert (M : (mag radix2 x <= -1)%Z).
    { apply mag_le_bpow; [lra|]. rewrite Rabs_pos_eq by lra.
      change (bpow radix2 (-1)) with (/ 2). exact L. }
    unfold FLT_exp. lia.
  - change (bpow radix2 (-54)) with (/ IZR (Z.pow_pos 2 54)).
    replace (IZR (Z.pow_pos 2 54)) with 18014398509481984 by (vm_compute; reflexivity). lra.
Qed.

Lemma digits_ok : forall h H, literal h H -> has_decimals 16 h -> (0 < h)%Q ->
  (h <= 1 # 2)%Q \/ B2R H = Q2R h -> float_digit H = Ok (set_digit h).
Proof.
  intros h H [F L] D P C.
  assert (E : Rabs (B2R H - Q2R h) * 10000000000000000 < / 2).
  { assert (P' : 0 < Q2R h) by (apply Qlt_Rlt in P; unfold Q2R at 1 in P; cbn in P; lra).
    destruct C as [C|C].
    - destruct (Qlt_le_dec h (1#2)) as [C'|C'].
      + apply Qlt_Rlt in C'. replace (Q2R (1#2)) with (/2) in C' by (unfold Q2R; cbn; lra).
        rewrite L. generalize (half_ulp (Q2R h) (conj P' C')). fold (fl (Q2R h)). lra.
      + assert (K : Q2R h = / 2).
        { apply Qle_Rle in C, C'. replace (Q2R (1#2)) with (/2) in C, C' by (unfold Q2R; cbn; lra). lra. }
        rewrite L, K.
        replace (round radix2 (FLT_exp (-1074) 53) ZnearestE (/ 2)) with (/ 2).
        * rewrite Rminus_diag_eq by reflexivity. rewrite Rabs_R0. lra.
        * symmetry. apply round_generic; [apply valid_rnd_N|].
          change (/ 2) with (bpow radix2 (-1)). apply generic_format_bpow. unfold FLT_exp. lia.
    - rewrite C, Rminus_diag_eq by reflexivity. rewrite Rabs_R0. lra. }
  destruct D as [z Z].
  assert (R1 : py_round (h * pow10 16) = z) by (apply py_round_Z; exact Z).
  assert (R2 : py_round (rational H * pow10 16) = z).
  { apply py_round_near. rewrite Q2R_mult, rational_B2R, ten_pow10.
    apply Qeq_eqR in Z. rewrite Q2R_mult, !Q2R_inject_Z in Z.
    change (IZR (10 ^ Z.of_nat 16)) with (ten 16) in Z.
    assert (T : ten 16 = 10000000000000000) by (unfold ten; apply f_equal; vm_compute; reflexivity).
    rewrite <- Z, T.
    replace (B2R H * 10000000000000000 - Q2R h * 10000000000000000)
      with ((B2R H - Q2R h) * 10000000000000000) by ring.
    rewrite Rabs_mult, (Rabs_pos_eq 10000000000000000); [exact E|lra]. }
  unfold float_digit, set_digit.
  destruct H; try discriminate F; rewrite R1, R2; reflexivity.
Qed.

Lemma passes_ok : forall (A B : Type) (f : A -> result B) (Pr : A -> B -> Prop) l,
  (forall x, In x l -> exists y, f x = Ok y /\ Pr x y) ->
  exists ys, passes f l = Ok ys /\ Forall2 Pr l ys.
Proof.
  intros A B f Pr. induction l as [|x l IH]; intro H.
  - exists []. split; [reflexivity|constructor].
  - destruct (H x (or_introl eq_refl)) as (y & E & K).
    destruct IH as (ys & Es & Ks). { intros z Hz. apply H. now right. }
    exists (y :: ys). cbn [passes]. rewrite E. cbn [bind]. rewrite Es. split; [reflexivity|now constructor].
Qed.

Lemma passes_inv : forall (A B : Type) (f : A -> result B) l ys,
  passes f l = Ok ys -> Forall2 (fun x y => f x = Ok y) l ys.
Proof.
  intros A B f. induction l as [|x l IH]; intros ys H.
  - injection H as <-. constructor.
  - cbn [passes] in H. destruct (f x) as [y|] eqn:E; [|discriminate H]. cbn [bind] in H.
    destruct (passes f l) as [zs|] eqn:Es; [|discriminate H]. cbn [bind] in H.
    injection H as <-. constructor; [exact E|]. now apply IH.
Qed.

Lemma Forall2_at : forall (A B : Type) (Pr : A -> B -> Prop) l ys i y,
  Forall2 Pr l ys -> nth_error ys i = Some y -> exists x, nth_error l i = Some x /\ Pr x y.
Proof.
  intros A B Pr l ys i y F. revert i. induction F as [|x z l ys K F IH]; intros [|i] H; try discriminate H.
  - injection H as <-. exists x. split; [reflexivity|exact K].
  - apply (IH i H).
Qed.

(** What the quotient of the interval and the step rounds to. *)
Definition w : R := 281474976710656.

Lemma quotient_near : forall ra rb rh s n T A B H D P,
  0 <= ra -> 1 <= s -> 0 <= n -> 1 <= T <= 10000000000000000 -> 1 <= rh * T -> s <= w ->
  rb - ra = n * (s * rh) -> rb * T <= w ->
  Rabs (A - ra) <= u * ra + eta -> Rabs (B - rb) <= u * rb + eta -> Rabs (H - rh) <= u * rh + eta ->
  Rabs (D - (B - A)) <= u * Rabs (B - A) + eta ->
  Rabs (P - s * H) <= u * Rabs (s * H) + eta ->
  0 < P /\ Rabs (D / P - n) <= 3 / 10 /\ Rabs (B - A) <= 2 * w /\ Rabs (s * H) <= 2 * w * s * rh /\ n <= w.
Proof.
  intros ra rb rh s n T A B H D P Ra S1 N0 [T1 T2] HT Sw E Bw EA EB EH ED EP.
  destruct eta_small as [e0 e1].
  assert (T0 : 0 < T) by lra.
  assert (Rh : 0 < rh). { apply Rmult_lt_reg_r with T; [exact T0|]. lra. }
  set (sg := s * rh) in *.
  assert (Sg : rh <= sg). { unfold sg. rewrite <- (Rmult_1_l rh) at 1. apply Rmult_le_compat_r; lra. }
  assert (Hrh : / 10000000000000000 <= rh).
  { apply Rmult_le_reg_r with T; [exact T0|]. apply Rle_trans with 1; [|lra].
    apply Rmult_le_reg_l with 10000000000000000; [lra|]. rewrite <- Rmult_assoc, Rinv_r by lra. lra. }
  assert (NSg : 0 <= n * sg). { apply Rmult_le_pos; [exact N0|lra]. }
  assert (Rb : rb <= w * sg).
  { apply Rmult_le_reg_r with T; [exact T0|]. apply Rle_trans with w; [exact Bw|].
    rewrite Rmult_assoc. rewrite <- (Rmult_1_r w) at 1. apply Rmult_le_compat_l; [unfold w; lra|].
    apply Rle_trans with (rh * T); [exact HT|]. apply Rmult_le_compat_r; lra. }
  assert (Nw : n <= w).
  { apply Rmult_le_reg_r with sg; lra. }
  assert (Rbw : rb <= w).
  { apply Rle_trans with (rb * T); [|exact Bw]. rewrite <- (Rmult_1_r rb) at 1.
    apply Rmult_le_compat_l; lra. }
  assert (SH : Rabs (s * H - sg) <= 2 * u * sg).
  { unfold sg. replace (s * H - s * rh) with (s * (H - rh)) by ring.
    rewrite Rabs_mult, (Rabs_pos_eq s) by lra.
    apply Rle_trans with (s * (2 * u * rh)).
    - apply Rmult_le_compat_l; [lra|]. eapply Rle_trans; [exact EH|]. unfold u. lra.
    - right. ring. }
  apply Rabs_le_inv in EA, EB, SH.
  assert (BA : Rabs (B - A) <= rb + 2 * u * rb + 2 * eta).
  { apply Rabs_le. unfold u in *. lra. }
  assert (SHa : Rabs (s * H) <= sg + 2 * u * sg).
  { apply Rabs_le. unfold u in *. lra. }
  assert (PB : Rabs (P - sg) <= 4 * u * sg).
  { apply Rabs_le. apply Rabs_le_inv in EP. unfold u in *. lra. }
  assert (DB : Rabs (D - n * sg) <= (13/100) * sg).
  { apply Rabs_le. apply Rabs_le_inv in ED. rewrite <- E. unfold u, w in *. lra. }
  assert (PB' := Rabs_le_inv _ _ PB).
  assert (P0 : (99/100) * sg <= P). { unfold u in *. lra. }
  assert (Pp : 0 < P) by lra.
  split; [exact Pp|]. split.
  - replace (D / P - n) with ((D - n * P) / P) by (field; lra).
    unfold Rdiv. rewrite Rabs_mult, Rabs_inv, (Rabs_pos_eq P) by lra.
    apply Rmult_le_reg_r with P; [exact Pp|]. rewrite Rmult_assoc, Rinv_l, Rmult_1_r by lra.
    replace (D - n * P) with ((D - n * sg) + (- n * (P - sg))) by ring.
    eapply Rle_trans; [apply Rabs_triang|]. rewrite Rabs_mult, Rabs_Ropp, (Rabs_pos_eq n) by lra.
    assert (K : n * Rabs (P - sg) <= w * (4 * u * sg)).
    { apply Rmult_le_compat; [lra|apply Rabs_pos|lra|exact PB]. }
    unfold u, w in *. lra.
  - split; [|split; [|exact Nw]].
    + eapply Rle_trans; [exact BA|]. unfold u, w in *. lra.
    + eapply Rle_trans; [exact SHa|]. replace (2 * w * s * rh) with (2 * w * sg) by (unfold sg; ring).
      unfold u, w in *. lra.
Qed.

(** How far a computed time is from the time meant. *)
Lemma time_near : forall ra rb rh k T A H X t,
  0 <= ra -> 0 <= k <= w -> 1 <= T <= 10000000000000000 -> 1 <= rh * T ->
  ra + k * rh <= rb -> rb * T <= w ->
  Rabs (A - ra) <= u * ra + eta -> Rabs (H - rh) <= u * rh + eta ->
  Rabs (X - k * H) <= u * Rabs (k * H) + eta ->
  Rabs (t - (A + X)) <= u * Rabs (A + X) + eta ->
  Rabs (t - (ra + k * rh)) * T <= / 5 /\ Rabs (k * H) <= 2 * w /\ Rabs (A + X) <= 2 * w /\ rb <= w.
Proof.
  intros ra rb rh k T A H X t Ra [K0 Kw] [T1 T2] HT L Bw EA EH EX Et.
  destruct eta_small as [e0 e1].
  assert (T0 : 0 < T) by lra.
  assert (Rh : 0 < rh). { apply Rmult_lt_reg_r with T; [exact T0|]. lra. }
  set (kh := k * rh) in *.
  assert (Kh : 0 <= kh). { apply Rmult_le_pos; lra. }
  assert (Rbw : rb <= w).
  { apply Rle_trans with (rb * T); [|exact Bw]. rewrite <- (Rmult_1_r rb) at 1.
    apply Rmult_le_compat_l; lra. }
  assert (KH : Rabs (k * H - kh) <= u * kh + w * eta).
  { unfold kh. replace (k * H - k * rh) with (k * (H - rh)) by ring.
    rewrite Rabs_mult, (Rabs_pos_eq k) by lra.
    apply Rle_trans with (k * (u * rh + eta)).
    - apply Rmult_le_compat_l; [lra|exact EH].
    - rewrite Rmult_plus_distr_l. apply Rplus_le_compat; [right; ring|].
      apply Rmult_le_compat_r; lra. }
  apply Rabs_le_inv in EA. assert (KH' := Rabs_le_inv _ _ KH).
  assert (KHa : Rabs (k * H) <= kh + u * kh + w * eta).
  { apply Rabs_le. unfold u, w in *. lra. }
  assert (XB : Rabs (X - kh) <= 3 * u * kh + 3 * w * eta).
  { apply Rabs_le. apply Rabs_le_inv in EX. unfold u, w in *. lra. }
  assert (XB' := Rabs_le_inv _ _ XB).
  assert (AX : Rabs (A + X) <= (ra + kh) + 4 * u * (ra + kh) + 4 * w * eta).
  { apply Rabs_le. unfold u, w in *. lra. }
  assert (TB : Rabs (t - (ra + kh)) <= 5 * u * (ra + kh) + 10 * w * eta).
  { apply Rabs_le. apply Rabs_le_inv in Et. unfold u, w in *. lra. }
  split; [|split; [|split; [|exact Rbw]]].
  - apply Rle_trans with ((5 * u * (ra + kh) + 10 * w * eta) * T).
    + apply Rmult_le_compat_r; lra.
    + apply Rle_trans with (5 * u * (rb * T) + 10 * w * (eta * T)).
      * replace ((5 * u * (ra + kh) + 10 * w * eta) * T) with
          (5 * u * ((ra + kh) * T) + 10 * w * (eta * T)) by ring.
        apply Rplus_le_compat_r. apply Rmult_le_compat_l; [unfold u; lra|].
        apply Rmult_le_compat_r; lra.
      * assert (eta * T <= eta * 10000000000000000) by (apply Rmult_le_compat_l; lra).
        unfold u, w in *. lra.
  - eapply Rle_trans; [exact KHa|]. unfold u, w in *. lra.
  - eapply Rle_trans; [exact AX|]. unfold u, w in *. lra.
Qed.

(** A run over a whole number of steps. *)
Lemma ftimer_run : forall tm incl stride N a b h d,
  literal a (fst (ft_interval tm)) -> literal b (snd (ft_interval tm)) -> literal h (ft_step tm) ->
  (0 <= a)%Q -> (0 < h)%Q -> (0 < stride)%Z -> (1 <= N)%nat ->
  has_decimals d h -> (d <= 16)%nat ->
  (b - a == inject_Z (Z.of_nat N) * (inject_Z stride * h))%Q ->
  (b * inject_Z (10 ^ Z.of_nat d) <= inject_Z (2 ^ 48))%Q ->
  1 <= Q2R h * ten d /\
  exists l, ftimer_start tm incl stride = Ok l /\
    Forall2 (fun i p =>
      (0 <= i <= Z.of_nat N)%Z /\ is_finite (fst p) = true /\
      Rabs (B2R (fst p) - (Q2R a + IZR (stride * i) * Q2R h)) * ten d <= / 5 /\
      Q2R a + IZR (stride * i) * Q2R h <= Q2R b /\ Q2R b * ten d <= w /\ Q2R b <= w /\
      float_round_digits (fst p) (ft_digit tm) = Ok (snd p))
      (zrange (first_number incl) (Z.of_nat N + 1)) l.
Proof.
  intros tm incl stride N a b h d La Lb Lh A0 H0 S0 N1 Hd D16 E Bw.
  unfold ftimer_start. destruct (ft_interval tm) as [A B]. cbn [fst snd] in La, Lb.
  set (H := ft_step tm) in *.
  apply Qle_Rle in A0. apply Qlt_Rlt in H0. apply Qeq_eqR in E. apply Qle_Rle in Bw.
  rewrite Q2R_minus, !Q2R_mult, !Q2R_inject_Z in E. rewrite Q2R_mult, !Q2R_inject_Z in Bw.
  replace (Q2R 0) with 0 in A0, H0 by (unfold Q2R; cbn; ring).
  change (IZR (10 ^ Z.of_nat d)) with (ten d) in Bw.
  replace (IZR (2 ^ 48)) with w in Bw by (unfold w; apply f_equal; vm_compute; reflexivity).
  assert (Tb : 1 <= ten d <= 10000000000000000) by (split; [apply ten_pos|now apply ten_16]).
  assert (HT : 1 <= Q2R h * ten d).
  { destruct Hd as [z Z]. apply Qeq_eqR in Z. rewrite Q2R_mult, !Q2R_inject_Z in Z.
    change (IZR (10 ^ Z.of_nat d)) with (ten d) in Z. rewrite Z.
    assert (0 < Q2R h * ten d) by (apply Rmult_lt_0_compat; lra).
    rewrite Z in H1. apply IZR_le. apply lt_IZR in H1. lia. }
  split; [exact HT|].
  assert (SR : 1 <= IZR stride) by (apply IZR_le; lia).
  assert (NR : 1 <= IZR (Z.of_nat N)) by (apply IZR_le; lia).
  assert (Bpos : Q2R b <= w).
  { apply Rle_trans with (Q2R b * ten d); [|exact Bw]. rewrite <- (Rmult_1_r (Q2R b)) at 1.
    apply Rmult_le_compat_l; [|lra].
    assert (0 <= IZR (Z.of_nat N) * (IZR stride * Q2R h)).
    { apply Rmult_le_pos; [lra|]. apply Rmult_le_pos; lra. }
    lra. }
  assert (NS : IZR (Z.of_nat N) * IZR stride <= w).
  { apply Rle_trans with (Q2R b * ten d); [|exact Bw].
    apply Rle_trans with (IZR (Z.of_nat N) * IZR stride * (Q2R h * ten d)).
    - rewrite <- (Rmult_1_r (_ * _)) at 1. apply Rmult_le_compat_l; [|exact HT].
      apply Rmult_le_pos; lra.
    - replace (IZR (Z.of_nat N) * IZR stride * (Q2R h * ten d)) with
        ((IZR (Z.of_nat N) * (IZR stride * Q2R h)) * ten d) by ring.
      apply Rmult_le_compat_r; lra. }
  assert (Sw : IZR stride <= w).
  { apply Rle_trans with (IZR (Z.of_nat N) * IZR stride); [|exact NS].
    rewrite <- (Rmult_1_l (IZR stride)) at 1. apply Rmult_le_compat_r; lra. }
  assert (Wb : w <= big) by (generalize big_large; unfold w; lra).
  assert (exact_int : forall z, (0 <= z)%Z -> IZR z <= w ->
            exists x, float_of_int z = Ok x /\ is_finite x = true /\ B2R x = IZR z).
  { intros z Z0 Zw. destruct (float_of_int_ok z) as (x & X1 & X2 & X3).
    - rewrite Rabs_pos_eq by (now apply IZR_le). lra.
    - exists x. split; [exact X1|]. split; [exact X2|]. rewrite X3. apply fl_int.
      rewrite Z.abs_eq by exact Z0. apply le_IZR. apply Rle_trans with w; [exact Zw|].
      unfold w. apply IZR_le. vm_compute. discriminate. }
  destruct (exact_int stride ltac:(lia) Sw) as (s & Es & Fs & Rs).
  rewrite Es. cbn [bind].
  assert (EA := literal_error _ _ La). assert (EB := literal_error _ _ Lb). assert (EH := literal_error _ _ Lh).
  destruct La as [FA _]. destruct Lb as [FB _]. destruct Lh as [FH _].
  rewrite (Rabs_pos_eq (Q2R a)) in EA by exact A0. rewrite (Rabs_pos_eq (Q2R h)) in EH by lra.
  assert (Bn : 0 <= Q2R b).
  { assert (0 <= IZR (Z.of_nat N) * (IZR stride * Q2R h)).
    { apply Rmult_le_pos; [lra|]. apply Rmult_le_pos; lra. }
    lra. }
  rewrite (Rabs_pos_eq (Q2R b)) in EB by exact Bn.
  destruct (quotient_near (Q2R a) (Q2R b) (Q2R h) (IZR stride) (IZR (Z.of_nat N)) (ten d)
              (B2R A) (B2R B) (B2R H) (fl (B2R B - B2R A)) (fl (IZR stride * B2R H))
              A0 SR ltac:(lra) Tb HT Sw E Bw EA EB EH (fl_error _) (fl_error _))
    as (Pp & Q1 & Q2 & Q3 & Nw).
  assert (Hw : IZR stride * Q2R h <= w).
  { apply Rle_trans with (Q2R b); [|exact Bpos]. 
    assert (IZR stride * Q2R h <= IZR (Z.of_nat N) * (IZR stride * Q2R h)).
    { rewrite <- (Rmult_1_l (_ * _)) at 1. apply Rmult_le_compat_r; [|lra]. apply Rmult_le_pos; lra. }
    lra. }
  assert (W4 : 2 * w * w <= big) by (generalize big_large; unfold w; lra).
  destruct (fsub_ok B A FB FA) as [F1 R1]. { generalize big_large. unfold w in *. lra. }
  destruct (fmul_ok s H Fs FH) as [F2 R2].
  { rewrite Rs. eapply Rle_trans; [exact Q3|]. rewrite Rmult_assoc.
    apply Rle_trans with (2 * w * w); [|exact W4]. apply Rmult_le_compat_l; [unfold w; lra|exact Hw]. }
  rewrite Rs in R2.
  apply Rabs_le_inv in Q1.
  assert (Qa : Rabs (fl (B2R B - B2R A) / fl (IZR stride * B2R H)) <= 2 * w).
  { apply Rabs_le. unfold w in *. lra. }
  destruct (fdiv_ok _ _ F1 F2) as (q & Eq & Fq & Rq).
  { rewrite R2. lra. }
  { rewrite R1, R2. generalize big_large. unfold w in *. lra. }
  rewrite Eq. cbn [bind]. rewrite R1, R2 in Rq.
  assert (Er : float_round q = Ok (Z.of_nat N)).
  { assert (K : py_round (rational q) = Z.of_nat N).
    { apply py_round_near. rewrite rational_B2R, Rq.
      generalize (fl_error (fl (B2R B - B2R A) / fl (IZR stride * B2R H))). intro EQ.
      assert (Qb : Rabs (fl (B2R B - B2R A) / fl (IZR stride * B2R H)) <= w + 1).
      { apply Rabs_le. unfold w in *. lra. }
      apply Rabs_le_inv in EQ. destruct eta_small as [e0 e1].
      assert (U : u * Rabs (fl (B2R B - B2R A) / fl (IZR stride * B2R H)) <= u * (w + 1)).
      { apply Rmult_le_compat_l; [unfold u; lra|exact Qb]. }
      assert (Uw : u * (w + 1) <= 1 / 30). { unfold u, w. lra. }
      apply Rabs_def1; lra. }
    unfold float_round. destruct q; try discriminate Fq; now rewrite K. }
  rewrite Er. cbn [bind].
  apply passes_ok. intros i Hi.
  assert (I : (0 <= i <= Z.of_nat N)%Z).
  { apply In_nth_error in Hi. destruct Hi as [j J].
    assert (L : (j < length (zrange (first_number incl) (Z.of_nat N + 1)))%nat).
    { apply nth_error_Some. intro K. rewrite J in K. discriminate K. }
    rewrite zrange_length in L.
    change (if incl then 0%Z else 1%Z) with (first_number incl) in J.
    rewrite zrange_nth in J by exact L. apply (f_equal (fun z => match z with Some y => y | None => 0%Z end)) in J.
    subst i. unfold first_number in *. destruct incl; lia. }
  assert (K0 : 0 <= IZR (stride * i)) by (apply IZR_le; apply Z.mul_nonneg_nonneg; lia).
  assert (Ki : IZR (stride * i) <= IZR (Z.of_nat N) * IZR stride).
  { rewrite <- mult_IZR. apply IZR_le. rewrite (Z.mul_comm (Z.of_nat N)). apply Z.mul_le_mono_nonneg_l; lia. }
  assert (Kw : IZR (stride * i) <= w) by lra.
  destruct (exact_int (stride * i)%Z ltac:(apply Z.mul_nonneg_nonneg; lia) Kw) as (k & Ek & Fk & Rk).
  rewrite Ek. cbn [bind].
  assert (Lb : Q2R a + IZR (stride * i) * Q2R h <= Q2R b).
  { assert (IZR (stride * i) * Q2R h <= IZR (Z.of_nat N) * IZR stride * Q2R h) by (apply Rmult_le_compat_r; lra).
    lra. }
  destruct (time_near (Q2R a) (Q2R b) (Q2R h) (IZR (stride * i)) (ten d) (B2R A) (B2R H)
              (fl (IZR (stride * i) * B2R H)) (fl (B2R A + fl (IZR (stride * i) * B2R H)))
              A0 (conj K0 Kw) Tb HT Lb Bw EA EH (fl_error _) (fl_error _)) as (T1 & T2 & T3 & _).
  destruct (fmul_ok k H Fk FH) as [F3 R3]. { rewrite Rk. generalize big_large. unfold w in *. lra. }
  rewrite Rk in R3.
  destruct (fadd_ok A (fmul k H) FA F3) as [F4 R4]. { rewrite R3. generalize big_large. unfold w in *. lra. }
  rewrite R3 in R4.
  destruct (label_exists (fadd A (fmul k H)) (ft_digit tm) F4) as [lab El].
  { rewrite R4.
    assert (G : Rabs (fl (B2R A + fl (IZR (stride * i) * B2R H)) - (Q2R a + IZR (stride * i) * Q2R h)) <= / 5).
    { eapply Rle_trans; [|exact T1]. rewrite <- (Rmult_1_r (Rabs _)) at 1.
      apply Rmult_le_compat_l; [apply Rabs_pos|lra]. }
    apply Rabs_le_inv in G. apply Rabs_le.
    assert (0 <= IZR (stride * i) * Q2R h) by (apply Rmult_le_pos; lra).
    unfold w in *. lra. }
  exists (fadd A (fmul k H), lab). rewrite El. cbn [bind fst snd].
  split; [reflexivity|]. split; [exact I|]. split; [exact F4|].
  rewrite R4. split; [exact T1|]. split; [exact Lb|]. split; [exact Bw|]. split; [exact Bpos|exact El].
Qed.
