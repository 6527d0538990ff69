(** Proofs about the timer model. *)
From Coq Require Import QArith Qround Qabs ZArith List Bool Lia Lqa Psatz.
From Verif Require Import Base M_Timer S_Timer.
Import ListNotations.
Local Open Scope Q_scope.

Lemma py_round_comp : forall p q, p == q -> py_round p = py_round q.
Proof.
  intros p q H. unfold py_round.
  rewrite (Qfloor_comp _ _ H).
  rewrite (Qcompare_comp (p - inject_Z (Qfloor q)) (q - inject_Z (Qfloor q)) ltac:(rewrite H; reflexivity)
             (1#2) (1#2) ltac:(reflexivity)).
  reflexivity.
Qed.

Lemma py_round_Z : forall q z, q == inject_Z z -> py_round q = z.
Proof.
  intros q z H. rewrite (py_round_comp _ _ H). unfold py_round.
  rewrite Qfloor_Z.
  assert (E : Qcompare (inject_Z z - inject_Z z) (1#2) = Lt).
  { apply -> Qlt_alt. lra. }
  rewrite E. reflexivity.
Qed.

Lemma py_round_error : forall q, Qabs (inject_Z (py_round q) - q) <= 1#2.
Proof.
  intros q. unfold py_round.
  pose proof (Qfloor_le q) as Hle. pose proof (Qlt_floor q) as Hlt.
  rewrite inject_Z_plus in Hlt. change (inject_Z 1) with 1 in Hlt.
  apply Qabs_Qle_condition.
  destruct (Qcompare (q - inject_Z (Qfloor q)) (1#2)) eqn:E.
  - apply Qeq_alt in E.
    destruct (Z.even (Qfloor q)); rewrite ?inject_Z_plus; change (inject_Z 1) with 1; split; lra.
  - apply Qlt_alt in E. split; lra.
  - apply Qgt_alt in E. rewrite inject_Z_plus; change (inject_Z 1) with 1. split; lra.
Qed.

Lemma pow10_pos : forall d, 0 < pow10 d.
Proof.
  intros d. unfold pow10. change 0 with (inject_Z 0). rewrite <- Zlt_Qlt.
  apply Z.pow_pos_nonneg; lia.
Qed.

Lemma py_round_digits_exact : forall x d, has_decimals d x -> py_round_digits x d == x.
Proof.
  intros x d [z Hz]. unfold py_round_digits.
  assert (Hz' : x * pow10 d == inject_Z z) by exact Hz.
  rewrite (py_round_Z _ _ Hz').
  pose proof (pow10_pos d).
  rewrite <- Hz'. field. lra.
Qed.

Lemma py_round_digits_error : forall x d,
  Qabs (py_round_digits x d - x) <= (1#2) / pow10 d.
Proof.
  intros x d. unfold py_round_digits.
  pose proof (pow10_pos d) as Hp.
  pose proof (py_round_error (x * pow10 d)) as H.
  set (r := inject_Z (py_round (x * pow10 d))) in *.
  assert (E : r / pow10 d - x == (r - x * pow10 d) / pow10 d) by (field; lra).
  rewrite E.
  assert (Hi : 0 < / pow10 d) by (apply Qinv_lt_0_compat; exact Hp).
  unfold Qdiv. rewrite Qabs_Qmult.
  rewrite (Qabs_pos (/ pow10 d)) by lra.
  apply Qmult_le_compat_r; lra.
Qed.

(** ** decimals *)

Lemma has_decimals_plus : forall d x y, has_decimals d x -> has_decimals d y -> has_decimals d (x + y).
Proof.
  intros d x y [a Ha] [b Hb]. exists (a + b)%Z.
  rewrite inject_Z_plus, <- Ha, <- Hb. ring.
Qed.

Lemma has_decimals_scale : forall d z x, has_decimals d x -> has_decimals d (inject_Z z * x).
Proof.
  intros d z x [a Ha]. exists (z * a)%Z.
  rewrite inject_Z_mult, <- Ha. ring.
Qed.

Lemma has_decimals_comp : forall d x y, x == y -> has_decimals d x -> has_decimals d y.
Proof. intros d x y E [z Hz]. exists z. rewrite <- E. exact Hz. Qed.

Lemma has_decimals_mono : forall d d' x, (d <= d')%nat -> has_decimals d x -> has_decimals d' x.
Proof.
  intros d d' x Hle [z Hz]. exists (z * 10 ^ Z.of_nat (d' - d))%Z.
  rewrite inject_Z_mult, <- Hz.
  replace (10 ^ Z.of_nat d')%Z with (10 ^ Z.of_nat d * 10 ^ Z.of_nat (d' - d))%Z.
  - rewrite inject_Z_mult. ring.
  - rewrite <- Z.pow_add_r by lia. f_equal. lia.
Qed.

(** ** [set_digit] computes the least number of decimals *)

Lemma strip_zeros_le : forall k f, (strip_zeros k f <= k)%nat.
Proof.
  induction k; intros f; simpl; [lia|].
  destruct (f mod 10 =? 0)%Z; [specialize (IHk (f/10)%Z); lia | lia].
Qed.

(** With [d] digits left, [f] is divisible by 10^(k-d) and, unless nothing is
    left, the quotient is not divisible by 10. *)
Lemma strip_zeros_spec : forall k f,
  let d := strip_zeros k f in
  (exists q, f = q * 10 ^ Z.of_nat (k - d) /\ (d = 0%nat \/ q mod 10 <> 0))%Z.
Proof.
  induction k; intros f; simpl.
  - exists f. split; [rewrite Z.mul_1_r; reflexivity | left; reflexivity].
  - destruct (f mod 10 =? 0)%Z eqn:E.
    + apply Z.eqb_eq in E. destruct (IHk (f / 10)%Z) as [q [Hq Hd]]. exists q.
      pose proof (strip_zeros_le k (f/10)) as Hle. split; [|exact Hd].
      change (match strip_zeros k (f / 10) with 0%nat => S k | S l => (k - l)%nat end)
        with (S k - strip_zeros k (f/10))%nat.
      replace (S k - strip_zeros k (f / 10))%nat with (S (k - strip_zeros k (f / 10)))%nat by lia.
      rewrite Nat2Z.inj_succ, Z.pow_succ_r by lia.
      pose proof (Z.div_mod f 10 ltac:(lia)) as Hdm. rewrite E in Hdm. rewrite Hdm, Hq at 1. ring.
    + apply Z.eqb_neq in E. exists f. rewrite Nat.sub_diag. simpl. split; [ring | right; exact E].
Qed.

Lemma set_digit_spec : forall h,
  0 <= h -> has_decimals 16 h ->
  has_decimals (set_digit h) h /\
  (forall d, has_decimals d h -> (set_digit h <= d)%nat).
Proof.
  intros h Hpos [z Hz].
  assert (Hz' : h * pow10 16 == inject_Z z) by exact Hz.
  assert (Hz0 : (0 <= z)%Z).
  { assert (H0 : 0 <= inject_Z z).
    { rewrite <- Hz'. apply Qmult_le_0_compat; [exact Hpos|]. pose proof (pow10_pos 16); lra. }
    change 0 with (inject_Z 0) in H0. rewrite <- Zle_Qle in H0. exact H0. }
  unfold set_digit. rewrite (py_round_Z _ _ Hz'). rewrite Z.abs_eq by exact Hz0.
  set (f := (z mod 10 ^ 16)%Z).
  pose proof (strip_zeros_le 16 f) as Hle.
  destruct (strip_zeros_spec 16 f) as [q [Hq Hd]].
  set (d := strip_zeros 16 f) in *.
  assert (Hzf : z = (10 ^ 16 * (z / 10^16) + f)%Z) by (apply Z.div_mod; lia).
  assert (Hsplit : (10 ^ 16 = 10 ^ Z.of_nat (16 - d) * 10 ^ Z.of_nat d)%Z).
  { rewrite <- Z.pow_add_r by lia. f_equal. lia. }
  assert (Hzq : z = ((10 ^ Z.of_nat d * (z / 10^16) + q) * 10 ^ Z.of_nat (16 - d))%Z).
  { rewrite Hzf at 1. rewrite Hq at 1. rewrite Hsplit at 1. ring. }
  assert (Hpq : 0 < inject_Z (10 ^ Z.of_nat (16 - d))).
  { change 0 with (inject_Z 0). rewrite <- Zlt_Qlt. apply Z.pow_pos_nonneg; lia. }
  assert (Hh : h * inject_Z (10 ^ Z.of_nat d) == inject_Z (10 ^ Z.of_nat d * (z / 10^16) + q)).
  { apply (Qmult_inj_r _ _ (inject_Z (10 ^ Z.of_nat (16 - d)))); [lra|].
    rewrite <- inject_Z_mult, <- Hzq, <- Qmult_assoc, <- inject_Z_mult.
    rewrite <- Z.pow_add_r by lia.
    replace (Z.of_nat d + Z.of_nat (16 - d))%Z with (Z.of_nat 16) by lia. exact Hz. }
  split.
  - exists (10 ^ Z.of_nat d * (z / 10^16) + q)%Z. exact Hh.
  - intros d' [w Hw].
    destruct Hd as [H0 | Hnd]; [lia|].
    destruct (Nat.le_gt_cases d d') as [Hok | Hlt]; [exact Hok | exfalso].
    apply Hnd.
    (* h*10^d = w * 10^(d-d'), so 10 divides 10^d*(..)+q, hence q (d >= 1) *)
    assert (Hd1 : (1 <= d)%nat) by lia.
    assert (Eqz : (10 ^ Z.of_nat d * (z / 10^16) + q = w * 10 ^ Z.of_nat (d - d'))%Z).
    { apply inject_Z_injective. rewrite inject_Z_mult, <- Hh, <- Hw.
      replace (10 ^ Z.of_nat d)%Z with (10 ^ Z.of_nat d' * 10 ^ Z.of_nat (d - d'))%Z.
      - rewrite inject_Z_mult. ring.
      - rewrite <- Z.pow_add_r by lia. f_equal. lia. }
    replace (Z.of_nat (d - d')) with (Z.succ (Z.of_nat (d - d' - 1))) in Eqz by lia.
    replace (Z.of_nat d) with (Z.succ (Z.of_nat (d - 1))) in Eqz by lia.
    rewrite !Z.pow_succ_r in Eqz by lia.
    set (A := (10 ^ Z.of_nat (d - 1))%Z) in *. set (B := (10 ^ Z.of_nat (d - d' - 1))%Z) in *.
    set (Z16 := (z / 10^16)%Z) in *.
    apply Z.mod_divide; [lia|]. exists (w * B - A * Z16)%Z. nia.
Qed.

(** ** the range *)

Lemma zrange_length : forall lo hi, length (zrange lo hi) = Z.to_nat (hi - lo).
Proof. intros. unfold zrange. rewrite map_length, seq_length. reflexivity. Qed.

Lemma zrange_nth : forall lo hi i,
  (i < Z.to_nat (hi - lo))%nat -> nth_error (zrange lo hi) i = Some (lo + Z.of_nat i)%Z.
Proof.
  intros lo hi i H. unfold zrange.
  rewrite nth_error_map.
  rewrite (nth_error_nth' _ 0%nat) by (rewrite seq_length; exact H).
  rewrite seq_nth by exact H. reflexivity.
Qed.

Lemma timer_start_general : forall tm incl stride,
  ~ inject_Z stride * tm_step tm == 0 ->
  exists l, timer_start tm incl stride = Ok l /\
    length l = Z.to_nat (py_round ((snd (tm_interval tm) - fst (tm_interval tm)) / (inject_Z stride * tm_step tm)) + 1 - first_number incl) /\
    forall i, (i < length l)%nat ->
      exists t lab, nth_error l i = Some (t, lab) /\
        t == fst (tm_interval tm) + inject_Z (first_number incl + Z.of_nat i) * (inject_Z stride * tm_step tm) /\
        lab = py_round_digits t (tm_digit tm).
Proof.
  intros [[a b] h t0 d] incl stride Hne. cbn [tm_interval tm_step tm_digit fst snd] in *.
  unfold timer_start. cbn [tm_interval tm_step tm_digit].
  destruct (Qeq_bool (inject_Z stride * h) 0) eqn:E.
  { apply Qeq_bool_iff in E. contradiction. }
  eexists; split; [reflexivity|].
  rewrite map_length, zrange_length. split; [reflexivity|].
  intros i Hi.
  rewrite nth_error_map. rewrite zrange_nth by exact Hi. cbn.
  eexists _, _; split; [reflexivity|]. split; [|reflexivity].
  unfold first_number. ring.
Qed.

Lemma timer_points : forall tm incl stride N a b h,
  tm_interval tm = (a, b) -> tm_step tm = h ->
  0 < h -> (0 < stride)%Z -> (1 <= N)%nat ->
  b - a == inject_Z (Z.of_nat N) * (inject_Z stride * h) ->
  exists l, timer_start tm incl stride = Ok l /\
    length l = (if incl then S N else N) /\
    (forall i, (i < length l)%nat ->
       nth_is (map fst l) i (a + inject_Z (first_number incl + Z.of_nat i) * (inject_Z stride * h))) /\
    increasing (map fst l) /\
    nth_is (map fst l) (length l - 1) b /\
    (incl = true -> nth_is (map fst l) 0 a).
Proof.
  intros tm incl stride N a b h Hi Hs Hh Hst HN Hlen.
  assert (Hsp : 0 < inject_Z stride) by (change 0 with (inject_Z 0); rewrite <- Zlt_Qlt; exact Hst).
  set (D := inject_Z stride * h) in *.
  assert (HD : 0 < D) by (unfold D; nra).
  destruct (timer_start_general tm incl stride) as [l [Hl [Hlength Hnth]]].
  { rewrite Hs. fold D. lra. }
  rewrite Hi, Hs in Hlength, Hnth. cbn [fst snd] in Hlength, Hnth. fold D in Hlength, Hnth.
  assert (Hr : py_round ((b - a) / D) = Z.of_nat N).
  { apply py_round_Z. rewrite Hlen. field. lra. }
  rewrite Hr in Hlength.
  assert (HL : length l = if incl then S N else N).
  { rewrite Hlength. destruct incl; cbn [first_number]; lia. }
  assert (Hpts : forall i, (i < length l)%nat ->
       nth_is (map fst l) i (a + inject_Z (first_number incl + Z.of_nat i) * D)).
  { intros i Hlt. destruct (Hnth i Hlt) as [t [lab [H1 [H2 _]]]].
    exists t. rewrite nth_error_map, H1. split; [reflexivity | exact H2]. }
  exists l. split; [exact Hl|]. split; [exact HL|]. split; [exact Hpts|]. split; [|split].
  - intros i j x y Hij Hx Hy.
    assert (Hj : (j < length l)%nat).
    { rewrite <- (map_length fst l). apply nth_error_Some. rewrite Hy. discriminate. }
    destruct (Hpts i ltac:(lia)) as [x' [Hx' Ex]]. destruct (Hpts j Hj) as [y' [Hy' Ey]].
    rewrite Hx in Hx'. rewrite Hy in Hy'. inversion Hx'; inversion Hy'; subst x' y'.
    rewrite Ex, Ey.
    assert (inject_Z (first_number incl + Z.of_nat i) < inject_Z (first_number incl + Z.of_nat j))
      by (rewrite <- Zlt_Qlt; lia).
    nra.
  - destruct (Hpts (length l - 1)%nat) as [y [Hy Ey]].
    { rewrite HL. destruct incl; lia. }
    exists y. split; [exact Hy|]. rewrite Ey.
    assert (E : (first_number incl + Z.of_nat (length l - 1) = Z.of_nat N)%Z).
    { rewrite HL. destruct incl; cbn [first_number]; lia. }
    rewrite E. lra.
  - intros ->. destruct (Hpts 0%nat) as [y [Hy Ey]]; [lia|].
    exists y. split; [exact Hy|]. rewrite Ey. cbn [first_number]. change (inject_Z (0 + Z.of_nat 0)) with 0. lra.
Qed.

(** General (non-commensurable) interval: the last point is within half a stride of the end. *)
Lemma timer_last_close : forall tm incl stride a b h l,
  tm_interval tm = (a, b) -> tm_step tm = h ->
  0 < h -> (0 < stride)%Z ->
  timer_start tm incl stride = Ok l -> l <> [] ->
  exists t, nth_is (map fst l) (length l - 1) t /\
    Qabs (t - b) <= (1#2) * (inject_Z stride * h).
Proof.
  intros tm incl stride a b h l Hi Hs Hh Hst Hl Hne.
  assert (Hsp : 0 < inject_Z stride) by (change 0 with (inject_Z 0); rewrite <- Zlt_Qlt; exact Hst).
  set (D := inject_Z stride * h) in *.
  assert (HD : 0 < D) by (unfold D; nra).
  destruct (timer_start_general tm incl stride) as [l' [Hl' [Hlength Hnth]]].
  { rewrite Hs. fold D. lra. }
  rewrite Hl in Hl'. inversion Hl'; subst l'.
  rewrite Hi, Hs in Hlength, Hnth. cbn [fst snd] in Hlength, Hnth. fold D in Hlength, Hnth.
  assert (Hpos : (0 < length l)%nat) by (destruct l; [congruence | cbn; lia]).
  destruct (Hnth (length l - 1)%nat ltac:(lia)) as [t [lab [H1 [H2 _]]]].
  exists t. split.
  { exists t. rewrite nth_error_map, H1. split; reflexivity. }
  set (R := py_round ((b - a) / D)) in *.
  assert (E : (first_number incl + Z.of_nat (length l - 1) = R)%Z).
  { rewrite Hlength in *. destruct incl; cbn [first_number] in *; lia. }
  rewrite E in H2.
  pose proof (py_round_error ((b - a) / D)) as Herr. fold R in Herr.
  assert (E2 : t - b == (inject_Z R - (b - a) / D) * D) by (rewrite H2; field; lra).
  rewrite E2, Qabs_Qmult, (Qabs_pos D) by lra.
  apply Qmult_le_compat_r; lra.
Qed.

Lemma timer_labels : forall tm incl stride l a b,
  tm_interval tm = (a, b) ->
  0 < tm_step tm -> (0 < stride)%Z ->
  has_decimals 16 (tm_step tm) ->
  tm_digit tm = set_digit (tm_step tm) ->
  has_decimals (tm_digit tm) a ->
  timer_start tm incl stride = Ok l ->
  (forall i t lab, nth_error l i = Some (t, lab) -> lab == t) /\ distinct (map snd l).
Proof.
  intros tm incl stride l a b Hi Hh Hst H16 Hd Ha Hl.
  assert (Hsp : 0 < inject_Z stride) by (change 0 with (inject_Z 0); rewrite <- Zlt_Qlt; exact Hst).
  assert (HD : 0 < inject_Z stride * tm_step tm) by nra.
  destruct (timer_start_general tm incl stride) as [l' [Hl' [Hlength Hnth]]]; [lra|].
  rewrite Hl in Hl'. inversion Hl'; subst l'.
  rewrite Hi in Hnth. cbn [fst] in Hnth.
  destruct (set_digit_spec (tm_step tm) ltac:(lra) H16) as [Hdec _].
  rewrite <- Hd in Hdec.
  assert (Hexact : forall i t lab, nth_error l i = Some (t, lab) -> lab == t).
  { intros i t lab Hn.
    assert (Hlt : (i < length l)%nat) by (apply nth_error_Some; rewrite Hn; discriminate).
    destruct (Hnth i Hlt) as [t' [lab' [H1 [H2 H3]]]]. rewrite Hn in H1. injection H1 as Et El. subst t'. rewrite El, H3. apply py_round_digits_exact.
    apply (has_decimals_comp _ (a + inject_Z (first_number incl + Z.of_nat i) * (inject_Z stride * tm_step tm))).
    { symmetry; exact H2. }
    apply has_decimals_plus; [exact Ha|]. apply has_decimals_scale, has_decimals_scale. exact Hdec. }
  split; [exact Hexact|].
  intros i j x y Hx Hy Exy.
  rewrite nth_error_map in Hx, Hy.
  destruct (nth_error l i) as [[ti labi]|] eqn:Ei; [|discriminate].
  destruct (nth_error l j) as [[tj labj]|] eqn:Ej; [|discriminate].
  cbn in Hx, Hy. inversion Hx; inversion Hy; subst x y.
  rewrite (Hexact _ _ _ Ei), (Hexact _ _ _ Ej) in Exy.
  assert (Hli : (i < length l)%nat) by (apply nth_error_Some; rewrite Ei; discriminate).
  assert (Hlj : (j < length l)%nat) by (apply nth_error_Some; rewrite Ej; discriminate).
  destruct (Hnth i Hli) as [t1 [? [A1 [B1 _]]]]. destruct (Hnth j Hlj) as [t2 [? [A2 [B2 _]]]].
  rewrite Ei in A1. rewrite Ej in A2. inversion A1; inversion A2; subst t1 t2.
  set (D := inject_Z stride * tm_step tm) in *.
  set (zi := inject_Z (first_number incl + Z.of_nat i)) in *.
  set (zj := inject_Z (first_number incl + Z.of_nat j)) in *.
  assert (HQ : zi == zj).
  { apply (Qmult_inj_r _ _ D); [intros C; rewrite C in HD; apply (Qlt_irrefl _ HD)|]. apply (Qplus_inj_l _ _ a). rewrite <- B1, <- B2. exact Exy. }
  unfold zi, zj in HQ. apply (proj1 (inject_Z_injective _ _)) in HQ. lia.
Qed.

(** ** interval setter *)

Lemma Qle_bool_false : forall a b, Qle_bool a b = false <-> b < a.
Proof.
  intros a b. split; intros H.
  - apply Qnot_le_lt. intros C. apply Qle_bool_iff in C. congruence.
  - destruct (Qle_bool a b) eqn:E; [|reflexivity]. apply Qle_bool_iff in E. lra.
Qed.

Lemma interval_fset_spec : forall v,
  (acceptable v /\ exists a b, v = [a; b] /\ interval_fset v = Ok (a, b)) \/
  (~ acceptable v /\ interval_fset v = Err ValueError).
Proof.
  intros v.
  destruct v as [|a [|b [|c v]]];
    try (right; split; [intros (x & y & E & _); discriminate | reflexivity]).
  unfold interval_fset.
  destruct (Qle_bool 0 a) eqn:Ea; cbn [negb orb].
  2:{ apply Qle_bool_false in Ea. right; split; [|reflexivity].
      intros (x & y & E & H1 & H2). inversion E; subst. lra. }
  apply Qle_bool_iff in Ea.
  destruct (Qle_bool 0 b) eqn:Eb; cbn [negb].
  2:{ apply Qle_bool_false in Eb. right; split; [|reflexivity].
      intros (x & y & E & H1 & H2). inversion E; subst. lra. }
  destruct (Qle_bool b a) eqn:Eab.
  - apply Qle_bool_iff in Eab. right; split; [|reflexivity].
    intros (x & y & E & H1 & H2). inversion E; subst. lra.
  - apply Qle_bool_false in Eab. left. split.
    + exists a, b. repeat split; assumption.
    + exists a, b. split; reflexivity.
Qed.

Local Opaque set_digit.

Lemma timer_interval_history : forall ops tm,
  valid_interval (tm_interval tm) ->
  valid_interval (tm_interval (fold_left timer_exec ops tm)) /\
  expected_interval (tm_interval tm) ops (tm_interval (fold_left timer_exec ops tm)).
Proof.
  induction ops as [|o ops IH]; intros tm Hv; cbn [fold_left expected_interval].
  - split; [exact Hv | reflexivity].
  - assert (Hstep : valid_interval (tm_interval (timer_exec tm o)) /\
                    match o with
                    | AssignInterval v => (exists a b, v = [a; b] /\ 0 <= a /\ a < b /\ tm_interval (timer_exec tm o) = (a, b)) \/
                                      (~ acceptable v /\ tm_interval (timer_exec tm o) = tm_interval tm)
                    | _ => tm_interval (timer_exec tm o) = tm_interval tm
                    end).
    { destruct o as [v|h|t]; cbn [timer_exec set_step set_t tm_interval]; try (split; [exact Hv | reflexivity]).
      unfold set_interval.
      destruct (interval_fset_spec v) as [[[a [b [Ev [H1 H2]]]] [a' [b' [Ev' Hf]]]] | [Hn Hf]]; rewrite Hf; cbn.
      - rewrite Ev in Ev'. inversion Ev'; subst a' b'. split; [split; cbn; assumption|].
        left. exists a, b. repeat split; assumption.
      - split; [exact Hv|]. right. split; [exact Hn | reflexivity]. }
    destruct Hstep as [Hv' Hn].
    destruct (IH (timer_exec tm o) Hv') as [A B].
    split; [exact A|]. eexists; split; [exact B | exact Hn].
Qed.

Lemma set_interval_raises : forall tm v,
  (acceptable v <-> snd (set_interval tm v) = None) /\
  (~ acceptable v -> set_interval tm v = (tm, Some ValueError)).
Proof.
  intros tm v. unfold set_interval.
  destruct (interval_fset_spec v) as [[Ha [a [b [E Hf]]]] | [Hn Hf]]; rewrite Hf; cbn.
  - split; [tauto | intros C; contradiction].
  - split; [split; [contradiction | discriminate] | reflexivity].
Qed.

(** The digit attribute always belongs to the current step. *)
Lemma timer_digit_history : forall ops tm,
  tm_digit tm = set_digit (tm_step tm) ->
  tm_digit (fold_left timer_exec ops tm) = set_digit (tm_step (fold_left timer_exec ops tm)).
Proof.
  induction ops as [|o ops IH]; intros tm H; cbn; [exact H|].
  apply IH. destruct o as [v|h|t]; cbn; try exact H; [|reflexivity].
  unfold set_interval. destruct (interval_fset v); cbn; exact H.
Qed.
