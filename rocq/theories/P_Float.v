(** C74: the timer in floating-point numbers.  C01-C03 take times for exact
    rationals; here every number is the IEEE double Python computes. *)
From Coq Require Import QArith Qreals Qabs Reals ZArith Lia Lra List Bool.
From Flocq Require Import Core.Core IEEE754.BinarySingleNaN.
From Verif Require Import Base M_Timer S_Timer L_Timer M_Float S_Float L_Float.
Import ListNotations.
Local Open Scope R_scope.

Lemma point_R : forall a h s k,
  Q2R (a + inject_Z k * (inject_Z s * h)) = Q2R a + IZR (s * k) * Q2R h.
Proof. intros. rewrite Q2R_plus, !Q2R_mult, !Q2R_inject_Z, mult_IZR. ring. Qed.

Lemma points_apart : forall a h s j k T, (0 < s)%Z -> 0 < T -> 1 <= h * T -> (j < k)%Z ->
  (a + IZR (s * j) * h) * T + 1 <= (a + IZR (s * k) * h) * T.
Proof.
  intros a h s j k T S0 T0 HT J.
  assert (1 <= IZR (s * k) - IZR (s * j)).
  { rewrite <- minus_IZR. apply IZR_le. rewrite <- Z.mul_sub_distr_l.
    assert (1 * 1 <= s * (k - j))%Z by (apply Z.mul_le_mono_nonneg; lia). lia. }
  assert (1 * 1 <= (IZR (s * k) - IZR (s * j)) * (h * T)) by (apply Rmult_le_compat; lra).
  lra.
Qed.

Lemma near_order : forall x y p q T, 0 < T ->
  Rabs (x - p) * T <= 2 / 5 -> Rabs (y - q) * T <= 2 / 5 -> p * T + 1 <= q * T -> x < y.
Proof.
  intros x y p q T T0 H1 H2 H3.
  assert (E : forall z e, Rabs z * T <= e -> - e <= z * T <= e).
  { intros z e H. rewrite <- (Rabs_pos_eq T) in H by lra. rewrite <- Rabs_mult in H. now apply Rabs_le_inv. }
  apply E in H1, H2. apply Rmult_lt_reg_r with T; [exact T0|]. lra.
Qed.

Lemma Forall2_length : forall (A B : Type) (Pr : A -> B -> Prop) l ys,
  Forall2 Pr l ys -> length l = length ys.
Proof. intros A B Pr l ys F. induction F; [reflexivity|cbn [length]; now f_equal]. Qed.

Lemma zrange_at : forall incl N i k,
  nth_error (zrange (first_number incl) (Z.of_nat N + 1)) i = Some k ->
  k = (first_number incl + Z.of_nat i)%Z.
Proof.
  intros incl N i k H.
  assert (L : (i < length (zrange (first_number incl) (Z.of_nat N + 1)))%nat).
  { apply nth_error_Some. rewrite H. discriminate. }
  rewrite zrange_length in L. rewrite zrange_nth in H by exact L. now injection H as <-.
Qed.

(** Rounding neither loses nor adds a step: a run over [N] steps written in
    decimals visits [N] times (one more with the start), each within a fifth
    of a unit of the last decimal of the step, and strictly one after the
    other. *)
Theorem c74_every_point_once : forall tm include_start stride N a b h d,
  literal a (fst (ft_interval tm)) -> literal b (snd (ft_interval tm)) ->
  literal h (ft_step tm) ->
  (0 <= a)%Q -> (0 < h)%Q -> (0 < stride)%Z -> (1 <= N)%nat ->
  has_decimals d h -> (d <= 16)%nat ->
  (b - a == inject_Z (Z.of_nat N) * (inject_Z stride * h))%Q ->
  (b * inject_Z (10 ^ Z.of_nat d) <= inject_Z (2 ^ 48))%Q ->
  exists l, ftimer_start tm include_start stride = Ok l /\
    length l = (if include_start then S N else N) /\
    (forall i t lab, nth_error l i = Some (t, lab) ->
       is_finite t = true /\
       Rabs (B2R t - Q2R (a + inject_Z (first_number include_start + Z.of_nat i) * (inject_Z stride * h)))
         * IZR (10 ^ Z.of_nat d) <= / 5) /\
    climbing (map fst l).
Proof.
  intros tm incl stride N a b h d La Lb Lh A0 H0 S0 N1 Hd D16 E Bw.
  destruct (ftimer_run tm incl stride N a b h d La Lb Lh A0 H0 S0 N1 Hd D16 E Bw) as (HT & l & El & F).
  exists l. split; [exact El|]. split; [|split].
  - transitivity (length (zrange (first_number incl) (Z.of_nat N + 1)));
      [symmetry; apply (Forall2_length _ _ _ _ _ F)|]. rewrite zrange_length. unfold first_number. destruct incl; lia.
  - intros i t lab H. destruct (Forall2_at _ _ _ _ _ _ _ F H) as (k & K & _ & P1 & P2 & _).
    apply zrange_at in K. subst k. split; [exact P1|]. rewrite point_R. exact P2.
  - intros i j x y IJ Hi Hj. rewrite nth_error_map in Hi, Hj.
    destruct (nth_error l i) as [p|] eqn:Ei; [|discriminate Hi].
    destruct (nth_error l j) as [q|] eqn:Ej; [|discriminate Hj].
    injection Hi as <-. injection Hj as <-.
    destruct (Forall2_at _ _ _ _ _ _ _ F Ei) as (k1 & K1 & _ & _ & P1 & _).
    destruct (Forall2_at _ _ _ _ _ _ _ F Ej) as (k2 & K2 & _ & _ & P2 & _).
    apply zrange_at in K1, K2. assert (T0 := ten_pos d).
    eapply near_order with (T := ten d); [lra| | |].
    + eapply Rle_trans; [exact P1|lra].
    + eapply Rle_trans; [exact P2|lra].
    + apply points_apart; [exact S0|lra|exact HT|lia].
Qed.
Print Assumptions c74_every_point_once.

(** The number of decimals found for a step is the number needed to write it,
    for every step up to one half and every step a double represents exactly. *)
Theorem c74_digits : forall h H,
  literal h H -> has_decimals 16 h -> (0 < h)%Q ->
  (h <= 1 # 2)%Q \/ B2R H = Q2R h ->
  exists d, float_digit H = Ok d /\ decimals_of d h.
Proof.
  intros h H L D P C. exists (set_digit h). split; [now apply digits_ok|].
  apply set_digit_spec; [now apply Qlt_le_weak|exact D].
Qed.
Print Assumptions c74_digits.

(** Every label is the very double Python has for the decimal number of that
    time, so labels are what a user types and what file names spell; no two
    are equal. *)
Theorem c74_labels : forall tm include_start stride N a b h d,
  literal a (fst (ft_interval tm)) -> literal b (snd (ft_interval tm)) ->
  literal h (ft_step tm) -> float_digit (ft_step tm) = Ok (ft_digit tm) ->
  (0 <= a)%Q -> (0 < h)%Q -> (0 < stride)%Z -> (1 <= N)%nat ->
  decimals_of d h -> (d <= 16)%nat -> has_decimals d a ->
  (h <= 1 # 2)%Q \/ B2R (ft_step tm) = Q2R h ->
  (b - a == inject_Z (Z.of_nat N) * (inject_Z stride * h))%Q ->
  (b * inject_Z (10 ^ Z.of_nat d) <= inject_Z (2 ^ 48))%Q ->
  exists l, ftimer_start tm include_start stride = Ok l /\
    length l = (if include_start then S N else N) /\
    (forall i t lab, nth_error l i = Some (t, lab) ->
       literal (a + inject_Z (first_number include_start + Z.of_nat i) * (inject_Z stride * h)) lab) /\
    climbing (map snd l).
Proof.
  intros tm incl stride N a b h d La Lb Lh Dg A0 H0 S0 N1 [Hd Least] D16 Da C E Bw.
  destruct (ftimer_run tm incl stride N a b h d La Lb Lh A0 H0 S0 N1 Hd D16 E Bw) as (HT & l & El & F).
  assert (Ed : ft_digit tm = d).
  { destruct (c74_digits h (ft_step tm) Lh (has_decimals_mono d 16 h D16 Hd) H0 C) as (d' & K & Hd' & Least').
    rewrite Dg in K. apply (f_equal (fun r => match r with Ok z => z | Err _ => 0%nat end)) in K.
    rewrite K. apply Nat.le_antisymm; [now apply Least'|now apply Least]. }
  assert (Lit : forall i t lab, nth_error l i = Some (t, lab) ->
       literal (a + inject_Z (first_number incl + Z.of_nat i) * (inject_Z stride * h)) lab /\
       Rabs (B2R lab - (Q2R a + IZR (stride * (first_number incl + Z.of_nat i)) * Q2R h)) * ten d <= 2 / 5).
  { intros i t lab H. destruct (Forall2_at _ _ _ _ _ _ _ F H) as (k & K & I & P1 & P2 & P3 & P4 & P5 & P6).
    apply zrange_at in K. cbn [fst snd] in P1, P2, P6. rewrite <- K in *. rewrite Ed in P6.
    assert (A0' : 0 <= Q2R a). { apply Qle_Rle in A0. unfold Q2R at 1 in A0; cbn in A0. lra. }
    assert (H0' : 0 < Q2R h). { apply Qlt_Rlt in H0. unfold Q2R at 1 in H0; cbn in H0. lra. }
    assert (M : 0 <= Q2R a + IZR (stride * k) * Q2R h).
    { assert (0 <= IZR (stride * k)) by (apply IZR_le; apply Z.mul_nonneg_nonneg; lia).
      assert (0 <= IZR (stride * k) * Q2R h) by (apply Rmult_le_pos; lra). lra. }
    destruct (label_ok t d (a + inject_Z k * (inject_Z stride * h)) P1) as (lab' & R & L).
    - apply has_decimals_plus; [exact Da|]. apply has_decimals_scale. now apply has_decimals_scale.
    - rewrite point_R. lra.
    - rewrite point_R, Rabs_pos_eq by exact M. generalize big_large. unfold w in *. lra.
    - rewrite R in P6. apply (f_equal (fun r => match r with Ok z => z | Err _ => lab' end)) in P6.
      subst lab'. split; [exact L|].
      assert (G := literal_error _ _ L). rewrite point_R in G. rewrite (Rabs_pos_eq (_ + _)) in G by exact M.
      assert (T1 := ten_pos d). assert (T2 := ten_16 d D16). destruct eta_small as [e0 e1].
      apply Rle_trans with ((u * Q2R b + eta) * ten d).
      + apply Rmult_le_compat_r; [lra|]. eapply Rle_trans; [exact G|].
        apply Rplus_le_compat_r. apply Rmult_le_compat_l; [unfold u; lra|exact P3].
      + assert (eta * ten d <= eta * 10000000000000000) by (apply Rmult_le_compat_l; lra).
        replace ((u * Q2R b + eta) * ten d) with (u * (Q2R b * ten d) + eta * ten d) by ring.
        assert (u * (Q2R b * ten d) <= u * w) by (apply Rmult_le_compat_l; [unfold u; lra|exact P4]).
        unfold u, w in *. lra. }
  exists l. split; [exact El|]. split; [|split].
  - transitivity (length (zrange (first_number incl) (Z.of_nat N + 1)));
      [symmetry; apply (Forall2_length _ _ _ _ _ F)|]. rewrite zrange_length. unfold first_number. destruct incl; lia.
  - intros i t lab H. apply (Lit i t lab H).
  - intros i j x y IJ Hi Hj. rewrite nth_error_map in Hi, Hj.
    destruct (nth_error l i) as [[t1 l1]|] eqn:Ei; [|discriminate Hi].
    destruct (nth_error l j) as [[t2 l2]|] eqn:Ej; [|discriminate Hj].
    injection Hi as <-. injection Hj as <-.
    assert (T0 := ten_pos d).
    eapply near_order with (T := ten d); [lra|apply (Lit i t1 l1 Ei)|apply (Lit j t2 l2 Ej)|].
    apply points_apart; [exact S0|lra|exact HT|lia].
Qed.
Print Assumptions c74_labels.

Lemma finite_sum : forall x y : double, is_finite x = true -> is_finite (fadd x y) = true ->
  is_finite y = true /\ B2R (fadd x y) = fl (B2R x + B2R y).
Proof.
  intros x y Fx F.
  assert (Fy : is_finite y = true).
  { destruct y as [s|s| |s m e B]; try reflexivity; destruct x; try discriminate Fx; discriminate F. }
  split; [exact Fy|]. unfold fadd in *.
  generalize (Bplus_correct 53 1024 prec_positive prec_small mode_NE x y Fx Fy).
  destruct (Rlt_bool _ _); intro K; [apply K|].
  destruct K as [K _]. destruct (Bplus _ x y); try discriminate K; discriminate F.
Qed.

Lemma finite_product : forall x y : double, is_finite (fmul x y) = true ->
  B2R (fmul x y) = fl (B2R x * B2R y).
Proof.
  intros x y F. unfold fmul in *.
  generalize (Bmult_correct 53 1024 prec_positive prec_small mode_NE x y).
  destruct (Rlt_bool _ _); intro K; [apply K|].
  destruct (Bmult _ x y); try discriminate K; discriminate F.
Qed.

Lemma int_value : forall z x, float_of_int z = Ok x -> B2R x = fl (IZR z).
Proof.
  intros z x H. unfold float_of_int in H.
  generalize (binary_normalize_correct 53 1024 prec_positive prec_small mode_NE z 0 false).
  cbv zeta. replace (F2R (Float radix2 z 0)) with (IZR z) by (unfold F2R; cbn; ring).
  set (r := binary_normalize _ _ _ _ _ _ _ _) in *.
  destruct (Rlt_bool _ _); intro K.
  - destruct K as (K & _). destruct r; try discriminate H; injection H as <-; exact K.
  - destruct r; try discriminate K; discriminate H.
Qed.

(** Time never runs backwards, whatever doubles the interval and the step are,
    as long as no time overflows. *)
Theorem c74_never_backwards : forall tm include_start stride l,
  is_finite (fst (ft_interval tm)) = true -> 0 <= B2R (ft_step tm) -> (0 < stride)%Z ->
  ftimer_start tm include_start stride = Ok l ->
  (forall t lab, In (t, lab) l -> is_finite t = true) ->
  nondecreasing (map fst l).
Proof.
  intros tm incl stride l FA H0 S0 E Fin. unfold ftimer_start in E.
  destruct (ft_interval tm) as [A B]. cbn [fst] in FA.
  destruct (float_of_int stride) as [s|]; [|discriminate E]. cbn [bind] in E.
  destruct (fdiv _ _) as [q|]; [|discriminate E]. cbn [bind] in E.
  destruct (float_round q) as [n|]; [|discriminate E]. cbn [bind] in E.
  apply passes_inv in E.
  assert (V : forall i t lab, nth_error l i = Some (t, lab) ->
     B2R t = fl (B2R A + fl (fl (IZR (stride * ((if incl then 0 else 1) + Z.of_nat i))) * B2R (ft_step tm)))).
  { intros i t lab H. destruct (Forall2_at _ _ _ _ _ _ _ E H) as (k & K & P).
    assert (Lk : (i < length (zrange (if incl then 0 else 1) (n + 1)))%nat).
    { apply nth_error_Some. rewrite K. discriminate. }
    rewrite zrange_length in Lk. rewrite zrange_nth in K by exact Lk.
    apply (f_equal (fun z => match z with Some y => y | None => 0%Z end)) in K. subst k.
    destruct (float_of_int (stride * _)) as [k|] eqn:Ek; [|discriminate P]. cbn [bind] in P.
    destruct (float_round_digits _ _) as [lab'|]; [|discriminate P]. cbn [bind] in P.
    apply (f_equal (fun z => match z with Ok y => fst y | Err _ => t end)) in P. cbn [fst] in P.
    assert (Ft : is_finite t = true) by (apply (Fin t lab); apply (nth_error_In _ _ H)).
    subst t. destruct (finite_sum _ _ FA Ft) as [Fm ->].
    rewrite (finite_product _ _ Fm), (int_value _ _ Ek). reflexivity. }
  intros i j x y IJ Hi Hj. rewrite nth_error_map in Hi, Hj.
  destruct (nth_error l i) as [[t1 l1]|] eqn:Ei; [|discriminate Hi].
  destruct (nth_error l j) as [[t2 l2]|] eqn:Ej; [|discriminate Hj].
  injection Hi as <-. injection Hj as <-. cbn [fst].
  rewrite (V i t1 l1 Ei), (V j t2 l2 Ej).
  apply fl_mono. apply Rplus_le_compat_l. apply fl_mono. apply Rmult_le_compat_r; [exact H0|].
  apply fl_mono. apply IZR_le. apply Z.mul_le_mono_nonneg_l; [lia|]. destruct incl; lia.
Qed.
Print Assumptions c74_never_backwards.

(** Runs of one timer with different strides give the same point the same time
    and the same label, so a state saved in one run is found in another; this
    holds for all doubles, whatever the decimals of the step. *)
Theorem c74_strides_agree : forall tm incl1 incl2 s1 s2 l1 l2 i j p q,
  ftimer_start tm incl1 s1 = Ok l1 -> ftimer_start tm incl2 s2 = Ok l2 ->
  nth_error l1 i = Some p -> nth_error l2 j = Some q ->
  (s1 * (first_number incl1 + Z.of_nat i) = s2 * (first_number incl2 + Z.of_nat j))%Z ->
  p = q.
Proof.
  assert (V : forall tm incl stride l i p, ftimer_start tm incl stride = Ok l -> nth_error l i = Some p ->
    bind (float_of_int (stride * (first_number incl + Z.of_nat i)))
      (fun k => bind (float_round_digits (fadd (fst (ft_interval tm)) (fmul k (ft_step tm))) (ft_digit tm))
        (fun lab => Ok (fadd (fst (ft_interval tm)) (fmul k (ft_step tm)), lab))) = Ok p).
  { intros tm incl stride l i p E H. unfold ftimer_start in E.
    destruct (ft_interval tm) as [A B]. cbn [fst].
    destruct (float_of_int stride) as [s|]; [|discriminate E]. cbn [bind] in E.
    destruct (fdiv _ _) as [q|]; [|discriminate E]. cbn [bind] in E.
    destruct (float_round q) as [n|]; [|discriminate E]. cbn [bind] in E.
    apply passes_inv in E. destruct (Forall2_at _ _ _ _ _ _ _ E H) as (k & K & P).
    assert (Lk : (i < length (zrange (if incl then 0 else 1) (n + 1)))%nat).
    { apply nth_error_Some. rewrite K. discriminate. }
    rewrite zrange_length in Lk. rewrite zrange_nth in K by exact Lk.
    apply (f_equal (fun z => match z with Some y => y | None => 0%Z end)) in K. subst k.
    exact P. }
  intros tm incl1 incl2 s1 s2 l1 l2 i j p q E1 E2 H1 H2 S.
  assert (P := V _ _ _ _ _ _ E1 H1). assert (Q := V _ _ _ _ _ _ E2 H2).
  rewrite S in P. rewrite P in Q. now injection Q.
Qed.
Print Assumptions c74_strides_agree.

(** After any assignment the decimals are those of the current step. *)
Theorem c74_digits_follow_step :
  (forall tm h tm', set_fstep tm h = Ok tm' -> ft_step tm' = h /\ float_digit (ft_step tm') = Ok (ft_digit tm')) /\
  (forall tm a b tm', float_digit (ft_step tm) = Ok (ft_digit tm) -> set_finterval tm a b = Ok tm' ->
     ft_interval tm' = (a, b) /\ float_digit (ft_step tm') = Ok (ft_digit tm')).
Proof.
  split.
  - intros tm h tm' H. unfold set_fstep in H. destruct (float_digit h) as [d|] eqn:E; [|discriminate H].
    cbn [bind] in H. injection H as <-. split; [reflexivity|exact E].
  - intros tm a b tm' D H. unfold set_finterval in H.
    destruct (_ || _); [discriminate H|]. destruct (Bleb b a); [discriminate H|].
    injection H as <-. split; [reflexivity|exact D].
Qed.
Print Assumptions c74_digits_follow_step.

(** An interval of two finite numbers is accepted exactly when 0 <= start < end. *)
Theorem c74_interval : forall tm a b,
  is_finite a = true -> is_finite b = true ->
  (0 <= B2R a < B2R b <-> exists tm', set_finterval tm a b = Ok tm' /\ ft_interval tm' = (a, b)).
Proof.
  intros tm a b Fa Fb. unfold set_finterval.
  rewrite !Bltb_correct by (assumption || reflexivity). rewrite Bleb_correct by assumption.
  cbn [B2R fzero].
  destruct (Rlt_bool_spec (B2R a) 0); destruct (Rlt_bool_spec (B2R b) 0); cbn [orb];
    try (split; [lra|intros (tm' & K & _); discriminate K]).
  destruct (Rle_bool_spec (B2R b) (B2R a)).
  - split; [lra|intros (tm' & K & _); discriminate K].
  - split; [intros _; eexists; split; reflexivity|lra].
Qed.
Print Assumptions c74_interval.

(** A start that is not a number passes both checks; the run then raises. *)
Theorem c74_interval_nan_refuted : forall tm b, is_finite b = true -> 0 <= B2R b ->
  exists tm', set_finterval tm B754_nan b = Ok tm' /\ ft_interval tm' = (B754_nan, b) /\
    forall include_start stride, exists e, ftimer_start tm' include_start stride = Err e.
Proof.
  intros tm b Fb Pb.
  assert (E : set_finterval tm B754_nan b = Ok (mk_ftimer (B754_nan, b) (ft_step tm) (ft_t tm) (ft_digit tm))).
  { unfold set_finterval.
    assert (L : Bltb b fzero = false).
    { rewrite Bltb_correct by (assumption || reflexivity). apply Rlt_bool_false. exact Pb. }
    rewrite L. replace (Bleb b B754_nan) with false by (destruct b as [?|[]| |[] m e H]; reflexivity). reflexivity. }
  eexists. split; [exact E|]. split; [reflexivity|].
  intros incl stride. unfold ftimer_start. cbn [ft_interval ft_step].
  destruct (float_of_int stride) as [s|e]; [|eexists; reflexivity]. cbn [bind].
  unfold fdiv. destruct (Beqb _ fzero); [eexists; reflexivity|]. cbn [bind].
  replace (fsub b B754_nan) with (@B754_nan 53 1024) by (destruct b; reflexivity).
  replace (Bdiv mode_NE B754_nan (fmul s (ft_step tm))) with (@B754_nan 53 1024) by (destruct (fmul s (ft_step tm)); reflexivity).
  eexists. reflexivity.
Qed.
Print Assumptions c74_interval_nan_refuted.

Lemma literal_unique : forall q x y, literal q x -> literal q y -> (rational x == rational y)%Q.
Proof. intros q x y [_ X] [_ Y]. apply eqR_Qeq. rewrite !rational_B2R, X, Y. reflexivity. Qed.

Lemma small_literal : forall s q, (Qabs q <= 1000)%Q -> literal q (float_of_rational s q).
Proof.
  intros s q H. apply float_of_rational_ok. apply Qabs_Qle_condition in H. destruct H as [H1 H2].
  apply Qle_Rle in H1, H2. replace (Q2R (-(1000))) with (-1000) in H1 by (unfold Q2R; cbn; lra).
  replace (Q2R 1000) with 1000 in H2 by (unfold Q2R; cbn; lra).
  apply Rabs_le. generalize big_large. lra.
Qed.

(** Above one half the number of decimals is wrong for common steps: 0.56 and
    1.1 are given sixteen decimals. *)
Theorem c74_digits_refuted :
  (exists H, literal (56 # 100) H /\ decimals_of 2 (56 # 100) /\ float_digit H = Ok 16%nat) /\
  (exists H, literal (11 # 10) H /\ decimals_of 1 (11 # 10) /\ float_digit H = Ok 16%nat).
Proof.
  assert (D : forall h, (0 <= h)%Q -> has_decimals 16 h -> decimals_of (set_digit h) h)
    by (intros h; apply set_digit_spec).
  split.
  - exists (float_of_rational false (56 # 100)). split; [apply small_literal; vm_compute; discriminate|].
    split; [|vm_compute; reflexivity].
    apply (D (56 # 100)); [vm_compute; discriminate|exists 5600000000000000%Z; vm_compute; reflexivity].
  - exists (float_of_rational false (11 # 10)). split; [apply small_literal; vm_compute; discriminate|].
    split; [|vm_compute; reflexivity].
    apply (D (11 # 10)); [vm_compute; discriminate|exists 11000000000000000%Z; vm_compute; reflexivity].
Qed.
Print Assumptions c74_digits_refuted.

(** ... and the labels are then not the decimal numbers: with step 1.1 the
    third time of the run from 0 to 11 is labelled 3.3000000000000003. *)
Theorem c74_labels_refuted : exists tm l t lab,
  literal 0 (fst (ft_interval tm)) /\ literal 11 (snd (ft_interval tm)) /\
  literal (11 # 10) (ft_step tm) /\ float_digit (ft_step tm) = Ok (ft_digit tm) /\
  ftimer_start tm false 1 = Ok l /\ nth_error l 2 = Some (t, lab) /\
  ~ literal (0 + inject_Z 3 * (inject_Z 1 * (11 # 10))) lab.
Proof.
  set (tm := mk_ftimer (fzero, float_of_rational false 11) (float_of_rational false (11 # 10)) fzero 16).
  assert (C : match ftimer_start tm false 1 with
              | Ok l => match nth_error l 2 with
                        | Some p => Qeq_bool (rational (snd p)) (rational (float_of_rational false (33 # 10)))
                        | None => true
                        end
              | Err _ => true
              end = false) by (vm_compute; reflexivity).
  exists tm.
  destruct (ftimer_start tm false 1) as [l|]; [|discriminate C].
  destruct (nth_error l 2) as [[t lab]|] eqn:N; [|discriminate C].
  exists l, t, lab.
  split; [apply (small_literal false 0); vm_compute; discriminate|].
  split; [apply small_literal; vm_compute; discriminate|].
  split; [apply small_literal; vm_compute; discriminate|].
  split; [vm_compute; reflexivity|].
  split; [reflexivity|]. split; [exact N|].
  intro L. assert (M := small_literal false (33 # 10) ltac:(vm_compute; discriminate)).
  assert (L' : literal (33 # 10) lab) by (refine (literal_comp _ _ _ _ L); vm_compute; reflexivity).
  assert (K := literal_unique _ _ _ L' M). apply Qeq_bool_iff in K. cbn [snd] in C.
  rewrite K in C. discriminate C.
Qed.
Print Assumptions c74_labels_refuted.

(** The hypotheses of the theorems above are met by a run from 0.3 to 2.3 in
    steps of 0.1, two at a time: ten times, labelled 0.5, 0.7, ..., 2.3. *)
Example c74_example :
  let tm := mk_ftimer (float_of_rational false (3 # 10), float_of_rational false (23 # 10))
              (float_of_rational false (1 # 10)) fzero 1 in
  (exists l, ftimer_start tm false 2 = Ok l /\ length l = 10%nat /\
     (forall i t lab, nth_error l i = Some (t, lab) ->
        literal ((3 # 10) + inject_Z (1 + Z.of_nat i) * (inject_Z 2 * (1 # 10))) lab) /\
     climbing (map snd l)) /\
  set_fstep (mk_ftimer (ft_interval tm) fzero fzero 0) (float_of_rational false (1 # 10)) = Ok tm.
Proof.
  cbv zeta. split.
  2: { unfold set_fstep. replace (float_digit (float_of_rational false (1 # 10))) with (Ok 1%nat)
         by (vm_compute; reflexivity). reflexivity. }
  apply (c74_labels _ false 2 10 (3 # 10) (23 # 10) (1 # 10) 1); cbn [ft_interval fst snd ft_step ft_digit].
  - apply small_literal. vm_compute. discriminate.
  - apply small_literal. vm_compute. discriminate.
  - apply small_literal. vm_compute. discriminate.
  - vm_compute. reflexivity.
  - discriminate.
  - reflexivity.
  - reflexivity.
  - lia.
  - apply (set_digit_spec (1 # 10)); [discriminate|]. exists 1000000000000000%Z. vm_compute. reflexivity.
  - lia.
  - exists 3%Z. vm_compute. reflexivity.
  - left. discriminate.
  - vm_compute. reflexivity.
  - vm_compute. discriminate.
Qed.
