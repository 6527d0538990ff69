(** Property C39 (grid stretching). *)
From Coq Require Import Reals List Bool Arith Lia Lra.
From Verif Require Import Base M_Bla M_Buffer P_Bla P_Buffer.
Import ListNotations.
Open Scope R_scope.

(** ** The iteration behind the exponential and the tangential mapping *)
Section Iteration.
Variables (h : R -> R) (s L low top : R).
Hypotheses (Hs : 1 < s) (HL : L <> 0) (Hlow : 0 < low).
Hypothesis h_mono : forall x y, 0 < x -> x <= y -> h x <= h y.
Hypothesis h_low : forall y, 0 < y -> y <= low -> y <= h (s * y).
Hypothesis h_top : forall y, 0 < y -> y <= Rmax (L * L) top -> h (s * y) <= Rmax (L * L) top.

Definition F (c : R) : R := h (s * L * c) / L.
(** Scaled iterates. *)
Definition y (n : nat) : R := L * Nat.iter n F L.
(** Lower bound of all scaled iterates. *)
Definition floor_ : R := Rmin (L * L) low.

Lemma y_0 : y 0 = L * L.
Proof. reflexivity. Qed.
Lemma y_S : forall n, y (S n) = h (s * y n).
Proof.
  intros n. unfold y. change (Nat.iter (S n) F L) with (F (Nat.iter n F L)). unfold F at 1. rewrite (Rmult_assoc s L). field. exact HL.
Qed.

Lemma LL : 0 < L * L.
Proof. nra. Qed.

Lemma floor_pos : 0 < floor_.
Proof. unfold floor_. apply Rmin_pos; [apply LL | exact Hlow]. Qed.

Lemma y_low : forall n, floor_ <= y n.
Proof.
  assert (P := floor_pos). induction n as [|n IH]; [rewrite y_0; apply Rmin_l|]. rewrite y_S.
  eapply Rle_trans; [apply h_low; [exact P | apply Rmin_r]|]. apply h_mono; nra.
Qed.

Lemma y_pos : forall n, 0 < y n.
Proof. intros n. assert (P := floor_pos). assert (Q := y_low n). lra. Qed.

Lemma y_top : forall n, y n <= Rmax (L * L) top.
Proof. induction n as [|n IH]; [rewrite y_0; apply Rmax_l|]. rewrite y_S. apply h_top; [apply y_pos | exact IH]. Qed.

Lemma y_monotone : Un_growing y \/ Un_decreasing y.
Proof.
  assert (St : forall n, y n <= y (S n) -> y (S n) <= y (S (S n))).
  { intros n H. rewrite (y_S (S n)), (y_S n) at 1. apply h_mono; assert (A := y_pos n); nra. }
  assert (St' : forall n, y (S n) <= y n -> y (S (S n)) <= y (S n)).
  { intros n H. rewrite (y_S (S n)), (y_S n). apply h_mono; assert (A := y_pos (S n)); rewrite <- ?y_S; nra. }
  destruct (Rle_dec (y 0) (y 1)) as [H|H].
  - left. intros n. induction n as [|n IH]; [exact H | apply St, IH].
  - right. intros n. induction n as [|n IH]; [lra | apply St', IH].
Qed.

(** The increments tend to zero. *)
Lemma y_cauchy : forall eps, 0 < eps -> exists N, forall n, (N <= n)%nat -> Rabs (y (S n) - y n) < eps.
Proof.
  assert (C : Cauchy_crit y).
  { apply CV_Cauchy. destruct (Rle_dec (y 0) (y 1)) as [H|H].
    - apply growing_cv.
      + destruct y_monotone as [G|G]; [exact G|]. intros n.
        assert (E : forall k, y k = y 0).
        { assert (E1 : y 1 = y 0) by (assert (Q := G 0%nat); lra). induction k as [|k IH]; [reflexivity|]. rewrite y_S, IH, <- y_S. exact E1. }
        rewrite (E n), (E (S n)). lra.
      + exists (Rmax (L * L) top). intros x (n & ->). apply y_top.
    - apply decreasing_cv.
      + destruct y_monotone as [G|G]; [|exact G]. exfalso. apply H. apply (G 0%nat).
      + exists (- floor_). intros x (n & ->). unfold opp_seq. assert (Q := y_low n). lra. }
  intros eps He. destruct (C eps He) as (N & HN). exists N. intros n Hn. apply HN; lia.
Qed.

Lemma increment : forall n, y (S n) - y n = L * (Nat.iter (S n) F L - Nat.iter n F L).
Proof. intros n. unfold y. ring. Qed.

(** Length of the stretched layer in terms of two successive iterates. *)
Lemma length_error : forall n, Rabs (s * L * (y n / y (S n)) - s * L) <= s * Rabs L / floor_ * Rabs (y (S n) - y n).
Proof.
  intros n. assert (A := y_pos (S n)). assert (B := y_low (S n)). assert (C := floor_pos).
  replace (s * L * (y n / y (S n)) - s * L) with (s * L * / y (S n) * (y n - y (S n))) by (field; lra).
  rewrite !Rabs_mult. rewrite (Rabs_right s), (Rabs_right (/ y (S n))) by (try (apply Rle_ge; left; apply Rinv_0_lt_compat; lra); lra).
  rewrite (Rabs_minus_sym (y (S n))). apply Rmult_le_compat_r; [apply Rabs_pos|]. apply Rmult_le_compat_l; [assert (P := Rabs_pos L); nra|].
  apply Rinv_le_contravar; lra.
Qed.

(** Outcome of the iteration, at least one step. *)
Lemma outcome : forall it tol, (1 <= it)%nat -> exists n, (n < it)%nat /\ fixpoint_iteration L F it tol = Nat.iter (S n) F L /\
  (S n = it \/ Rabs (Nat.iter (S n) F L - Nat.iter n F L) < tol).
Proof.
  intros it tol Hit. destruct (c40_fixpoint F it tol L) as (n & N & E & _ & C). destruct C as [[C _]|(k & -> & D)].
  - destruct n as [|n]; [lia|]. exists n. split; [lia|]. split; [exact E | left; exact C].
  - exists k. split; [lia|]. split; [exact E | right; exact D].
Qed.

Lemma converges : forall eps, 0 < eps -> exists N tol0, 0 < tol0 /\ forall it tol n, (N <= it)%nat -> tol <= tol0 ->
  (S n = it \/ Rabs (Nat.iter (S n) F L - Nat.iter n F L) < tol) -> Rabs (s * L * (y n / y (S n)) - s * L) < eps.
Proof.
  intros eps He. assert (P : 0 < Rabs L) by (apply Rabs_pos_lt, HL). assert (C := floor_pos).
  set (K := s * Rabs L / floor_). assert (HK : 0 < K) by (unfold K; apply Rdiv_lt_0_compat; nra).
  destruct (y_cauchy (eps / K)) as (N & HN); [apply Rdiv_lt_0_compat; lra|].
  exists (S N), (eps / (K * Rabs L)). split; [apply Rdiv_lt_0_compat; nra|]. intros it tol n Hit Ht D.
  eapply Rle_lt_trans; [apply length_error|]. fold K.
  apply Rlt_le_trans with (K * (eps / K)); [|right; field; lra]. apply Rmult_lt_compat_l; [exact HK|].
  destruct D as [D|D].
  - apply HN. lia.
  - rewrite increment, Rabs_mult. apply Rlt_le_trans with (Rabs L * (eps / (K * Rabs L))); [|right; field; lra].
    apply Rmult_lt_compat_l; lra.
Qed.
End Iteration.

(** ** Linear mapping *)

Theorem c39_linear : forall s b g, mapping_linear s (Buffer b) = Ok g ->
  1 < s /\ g_x g = b /\ g_map g (b_x0 b) = b_x0 b /\ (forall u v, u < v -> g_map g u < g_map g v) /\ g_length g = s * b_length b.
Proof.
  intros s b g H. unfold mapping_linear in H. destruct (Rlt_dec 1 s) as [S|S]; [|discriminate]. injection H as <-. cbn [g_x g_map].
  split; [exact S|]. split; [reflexivity|]. split; [ring|]. split; [intros u v L; nra|]. unfold g_length, b_length. cbn [g_x g_map].
  replace (s * (b_xn b - b_x0 b) + b_x0 b - (s * (b_x0 b - b_x0 b) + b_x0 b)) with (s * (b_xn b - b_x0 b)) by ring.
  rewrite Rabs_mult, (Rabs_right s) by lra. reflexivity.
Qed.
Print Assumptions c39_linear.

(** The mapping without effect. *)
Theorem c39_none : forall b, deformation (mapping_none b) = 0 /\ g_length (mapping_none b) = b_length b /\ forall u, g_map (mapping_none b) u = u.
Proof. intros b. split; [unfold deformation; cbn; ring|]. split; reflexivity. Qed.
Print Assumptions c39_none.

(** Scales up to one and coordinates of another kind are rejected by all mappings. *)
Theorem c39_rejected : forall it tol s b, s <= 1 ->
  mapping_linear s (Buffer b) = Err ValueError /\ mapping_exponential it tol s (Buffer b) = Err ValueError /\ mapping_tangential it tol s (Buffer b) = Err ValueError /\
  forall s', mapping_linear s' NoBuffer = Err TypeError /\ mapping_exponential it tol s' NoBuffer = Err TypeError /\ mapping_tangential it tol s' NoBuffer = Err TypeError.
Proof.
  intros it tol s b H. unfold mapping_linear, mapping_exponential, mapping_tangential. destruct (Rlt_dec 1 s); [lra|]. repeat split.
Qed.
Print Assumptions c39_rejected.

(** ** Exponential mapping *)

Definition h_exp (x : R) : R := ln (1 + x).

Lemma exp_mono : forall x y, 0 < x -> x <= y -> h_exp x <= h_exp y.
Proof. intros x z X [L|L]; [left; apply ln_increasing; lra | right; rewrite L; reflexivity]. Qed.

Lemma exp_low : forall s, 1 < s -> forall y, 0 < y -> y <= (s - 1) / s -> y <= h_exp (s * y).
Proof.
  intros s S z Z L. unfold h_exp. rewrite <- (ln_exp z) at 1. assert (E : exp z <= 1 + s * z).
  { assert (Q : s * z <= s - 1). { apply (Rmult_le_compat_l s) in L; [|lra]. replace (s * ((s - 1) / s)) with (s - 1) in L by (field; lra). exact L. }
    assert (Z1 : z < 1) by nra. assert (A := exp_ineq1_le (- z)). rewrite exp_Ropp in A. assert (B := exp_pos z).
    assert (C : exp z * (1 - z) <= 1). { apply (Rmult_le_compat_l (exp z)) in A; [|lra]. rewrite Rinv_r in A by lra. lra. }
    assert (D : 1 <= (1 + s * z) * (1 - z)) by nra. nra. }
  destruct E as [E|E]; [left; apply ln_increasing; [apply exp_pos | exact E] | right; rewrite E; reflexivity].
Qed.

Lemma exp_top : forall s L, 1 < s -> L <> 0 -> forall y, 0 < y -> y <= Rmax (L * L) (4 * (s - 1)) -> h_exp (s * y) <= Rmax (L * L) (4 * (s - 1)).
Proof.
  intros s L S HL z Z U. set (B := Rmax (L * L) (4 * (s - 1))) in *. assert (B4 : 4 * (s - 1) <= B) by apply Rmax_r.
  unfold h_exp. rewrite <- (ln_exp B). assert (E : 1 + s * z <= exp B).
  { replace B with (B / 2 + B / 2) by field. rewrite exp_plus. assert (A := exp_ineq1_le (B / 2)).
    apply Rle_trans with ((1 + B / 2) * (1 + B / 2)); nra. }
  destruct E as [E|E]; [left; apply ln_increasing; [nra | exact E] | right; rewrite E; reflexivity].
Qed.

Section Exponential.
Variables (it : nat) (tol s : R) (b : buffer) (g : grid_mapping).
Hypotheses (Hit : (1 <= it)%nat) (Hb : b_x0 b <> b_xn b) (H : mapping_exponential it tol s (Buffer b) = Ok g).
Notation L := (b_xn b - b_x0 b).

Lemma exp_shape : 1 < s /\ g = mk_mapping b (fun x => let c1 := fixpoint_iteration L (F h_exp s L) it tol in (-1 / c1) * (1 - exp (c1 * (x - b_x0 b))) + b_x0 b).
Proof.
  unfold mapping_exponential in H. destruct (Rlt_dec 1 s) as [S|S]; [|discriminate]. injection H as <-. split; [exact S | reflexivity].
Qed.

Lemma exp_form : exists n, (S n <= it)%nat /\ 1 < s /\ (S n = it \/ Rabs (Nat.iter (S n) (F h_exp s L) L - Nat.iter n (F h_exp s L) L) < tol) /\
  let c := Nat.iter (S n) (F h_exp s L) L in c <> 0 /\ L * c = ln (1 + s * (L * Nat.iter n (F h_exp s L) L)) /\
  g = mk_mapping b (fun x => (-1 / c) * (1 - exp (c * (x - b_x0 b))) + b_x0 b) /\
  g_map g (b_xn b) - g_map g (b_x0 b) = s * L * (y h_exp s L n / y h_exp s L (S n)).
Proof.
  destruct exp_shape as (S & E). assert (HL : L <> 0) by lra. assert (Lo : 0 < (s - 1) / s) by (apply Rdiv_lt_0_compat; lra).
  destruct (outcome h_exp s L it tol Hit) as (n & N & Eo & C). exists n. split; [lia|]. split; [exact S|]. split; [exact C|]. cbn zeta.
  assert (P := y_pos h_exp s L _ S HL Lo exp_mono (exp_low s S) (Datatypes.S n)). assert (P' := y_pos h_exp s L _ S HL Lo exp_mono (exp_low s S) n).
  assert (YS := y_S h_exp s L HL n). unfold y in P, P', YS.
  assert (Cn : Nat.iter (Datatypes.S n) (F h_exp s L) L <> 0) by (intros Z; rewrite Z in P; lra).
  split; [exact Cn|]. split; [exact YS|]. rewrite E. cbn zeta. rewrite Eo. split; [reflexivity|]. cbn [g_map].
  set (c := Nat.iter (Datatypes.S n) (F h_exp s L) L) in *. unfold y. fold c. set (d := Nat.iter n (F h_exp s L) L) in *.
  replace (c * (b_xn b - b_x0 b)) with (L * c) by ring. rewrite YS at 1. unfold h_exp. rewrite exp_ln by nra.
  replace (c * (b_x0 b - b_x0 b)) with 0 by ring. rewrite exp_0. field. repeat split; first [exact Cn | lra].
Qed.
End Exponential.

(** The mapping fixes the start of the layer and is strictly monotone; the length of the stretched layer differs from
    the scaled length at most by a multiple of the last increment of the iteration, which is below the tolerance
    unless all iterations were used. *)
Theorem c39_exponential : forall it tol s b g, (1 <= it)%nat -> b_x0 b <> b_xn b -> mapping_exponential it tol s (Buffer b) = Ok g ->
  1 < s /\ g_x g = b /\ g_map g (b_x0 b) = b_x0 b /\ (forall u v, u < v -> g_map g u < g_map g v) /\
  exists n, (S n <= it)%nat /\
    let f c := ln (1 + s * (b_xn b - b_x0 b) * c) / (b_xn b - b_x0 b) in
    let d := Rabs (Nat.iter (S n) f (b_xn b - b_x0 b) - Nat.iter n f (b_xn b - b_x0 b)) in
    (S n = it \/ d < tol) /\
    Rabs (g_length g - s * b_length b) <= s * (b_length b * b_length b) / Rmin (b_length b * b_length b) ((s - 1) / s) * d.
Proof.
  intros it tol s b g Hit Hb H. destruct (exp_form it tol s b g Hit Hb H) as (n & N & S & D & C & Y & E & Ln). cbn zeta in *.
  set (L := b_xn b - b_x0 b) in *. set (c := Nat.iter (Datatypes.S n) (F h_exp s L) L) in *.
  split; [exact S|]. split; [rewrite E; reflexivity|]. split.
  { rewrite E. cbn [g_map]. replace (c * (b_x0 b - b_x0 b)) with 0 by ring. rewrite exp_0. ring. }
  split.
  { intros u v Q. rewrite E. cbn [g_map]. apply Rplus_lt_compat_r. destruct (Rtotal_order c 0) as [T|[T|T]]; [|contradiction|].
    - assert (I : / c < 0) by (apply Rinv_lt_0_compat, T). assert (X : exp (c * (v - b_x0 b)) < exp (c * (u - b_x0 b))) by (apply exp_increasing; nra). unfold Rdiv. nra.
    - assert (I : 0 < / c) by (apply Rinv_0_lt_compat, T). assert (X : exp (c * (u - b_x0 b)) < exp (c * (v - b_x0 b))) by (apply exp_increasing; nra). unfold Rdiv. nra. }
  exists n. split; [exact N|]. split; [exact D|].
  assert (HL : L <> 0) by (unfold L; lra). assert (Lo : 0 < (s - 1) / s) by (apply Rdiv_lt_0_compat; lra).
  assert (LE := length_error h_exp s L _ S HL Lo exp_mono (exp_low s S) n). rewrite increment, Rabs_mult in LE.
  unfold g_length, b_length. fold L. replace (b_x0 (g_x g)) with (b_x0 b) by (rewrite E; reflexivity). replace (b_xn (g_x g)) with (b_xn b) by (rewrite E; reflexivity).
  rewrite Ln. replace (s * Rabs L) with (Rabs (s * L)) by (rewrite Rabs_mult, (Rabs_right s); lra).
  eapply Rle_trans; [apply Rabs_triang_inv2|]. eapply Rle_trans; [exact LE|]. right.
  unfold floor_.
  assert (LL' : Rabs L * Rabs L = L * L) by (rewrite <- Rabs_mult; apply Rabs_right; nra). rewrite <- LL'.
  assert (P := floor_pos L _ HL Lo). unfold floor_ in P. rewrite <- LL' in P. unfold F, h_exp. field. lra.
Qed.
Print Assumptions c39_exponential.

(** With enough iterations and a small tolerance the layer is stretched to any accuracy. *)
Theorem c39_exponential_converges : forall s b eps, 1 < s -> b_x0 b <> b_xn b -> 0 < eps -> exists N tol0, 0 < tol0 /\
  forall it tol, (N <= it)%nat -> tol <= tol0 -> exists g, mapping_exponential it tol s (Buffer b) = Ok g /\ Rabs (g_length g - s * b_length b) < eps.
Proof.
  intros s b eps S Hb He. set (L := b_xn b - b_x0 b). assert (HL : L <> 0) by (unfold L; lra). assert (Lo : 0 < (s - 1) / s) by (apply Rdiv_lt_0_compat; lra).
  destruct (converges h_exp s L _ _ S HL Lo exp_mono (exp_low s S) (exp_top s L S HL) eps He) as (N & t & T & C).
  exists (Datatypes.S N), t. split; [exact T|]. intros it tol Hit Ht.
  assert (exists g, mapping_exponential it tol s (Buffer b) = Ok g) as (g & Hg).
  { unfold mapping_exponential. destruct (Rlt_dec 1 s); [eexists; reflexivity | contradiction]. }
  exists g. split; [exact Hg|]. destruct (exp_form it tol s b g ltac:(lia) Hb Hg) as (n & Hn & _ & D & _ & _ & E & Ln). cbn zeta in *. fold L in D, E, Ln.
  specialize (C it tol n ltac:(lia) Ht D). unfold g_length, b_length. fold L.
  replace (b_x0 (g_x g)) with (b_x0 b) by (rewrite E; reflexivity). replace (b_xn (g_x g)) with (b_xn b) by (rewrite E; reflexivity).
  rewrite Ln. replace (s * Rabs L) with (Rabs (s * L)) by (rewrite Rabs_mult, (Rabs_right s); lra).
  eapply Rle_lt_trans; [apply Rabs_triang_inv2 | exact C].
Qed.
Print Assumptions c39_exponential_converges.

(** ** Tangential mapping *)

Lemma atan_mono : forall x y, 0 < x -> x <= y -> atan x <= atan y.
Proof. intros x z X [L|L]; [left; apply atan_increasing, L | right; rewrite L; reflexivity]. Qed.

Lemma atan_lower : forall x, 0 < x -> x / (1 + x ^ 2) <= atan x.
Proof.
  intros x X. destruct (MVT_cor2 atan (fun t => / (1 + t ^ 2)) 0 x X) as (c & E & C1 & C2).
  { intros c _. apply derivable_pt_lim_atan. }
  rewrite atan_0, !Rminus_0_r in E. rewrite E. unfold Rdiv. rewrite Rmult_comm. apply Rmult_le_compat_r; [lra|].
  apply Rinv_le_contravar; nra.
Qed.

Lemma atan_low : forall s, 1 < s -> forall y, 0 < y -> y <= sqrt (s - 1) / s -> y <= atan (s * y).
Proof.
  intros s S z Z U. eapply Rle_trans; [|apply atan_lower; nra].
  assert (Q : s * z <= sqrt (s - 1)). { apply (Rmult_le_compat_l s) in U; [|lra]. replace (s * (sqrt (s - 1) / s)) with (sqrt (s - 1)) in U by (field; lra). exact U. }
  assert (Q2 : (s * z) ^ 2 <= s - 1). { rewrite <- (sqrt_sqrt (s - 1)) by lra. assert (0 <= s * z) by nra. nra. }
  assert (P : 0 < 1 + (s * z) ^ 2) by (assert (X := pow2_ge_0 (s * z)); lra).
  apply (Rmult_le_reg_r (1 + (s * z) ^ 2)); [exact P|]. unfold Rdiv. rewrite Rmult_assoc, Rinv_l, Rmult_1_r by lra.
  rewrite (Rmult_comm s z). apply Rmult_le_compat_l; [lra|]. rewrite (Rmult_comm z s). lra.
Qed.

Lemma atan_top : forall s L, forall y, 0 < y -> y <= Rmax (L * L) (PI / 2) -> atan (s * y) <= Rmax (L * L) (PI / 2).
Proof. intros s L z _ _. assert (A := atan_bound (s * z)). eapply Rle_trans; [|apply Rmax_r]. lra. Qed.

Lemma tan_low_pos : forall s, 1 < s -> 0 < sqrt (s - 1) / s.
Proof. intros s S. apply Rdiv_lt_0_compat; [apply sqrt_lt_R0|]; lra. Qed.

Lemma tan_form : forall it tol s b g, (1 <= it)%nat -> b_x0 b <> b_xn b -> mapping_tangential it tol s (Buffer b) = Ok g ->
  let L := b_xn b - b_x0 b in
  exists n, (S n <= it)%nat /\ 1 < s /\ (S n = it \/ Rabs (Nat.iter (S n) (F atan s L) L - Nat.iter n (F atan s L) L) < tol) /\
  let c := Nat.iter (S n) (F atan s L) L in c <> 0 /\ 0 < L * c < PI / 2 /\
  g = mk_mapping b (fun x => (1 / c) * tan (c * (x - b_x0 b)) + b_x0 b) /\
  g_map g (b_xn b) - g_map g (b_x0 b) = s * L * (y atan s L n / y atan s L (S n)).
Proof.
  intros it tol s b g Hit Hb H L. unfold mapping_tangential in H. destruct (Rlt_dec 1 s) as [S|S]; [|discriminate]. injection H as E.
  assert (HL : L <> 0) by (unfold L; lra). assert (Lo := tan_low_pos s S).
  destruct (outcome atan s L it tol Hit) as (n & N & Eo & C). exists n. split; [lia|]. split; [exact S|]. split; [exact C|]. cbn zeta.
  assert (P := y_pos atan s L _ S HL Lo atan_mono (atan_low s S) (Datatypes.S n)). assert (P' := y_pos atan s L _ S HL Lo atan_mono (atan_low s S) n).
  assert (YS := y_S atan s L HL n). unfold y in P, P', YS.
  set (c := Nat.iter (Datatypes.S n) (F atan s L) L) in *. set (d := Nat.iter n (F atan s L) L) in *.
  assert (Cn : c <> 0) by (intros Z; rewrite Z in P; lra). split; [exact Cn|]. split.
  { split; [exact P|]. rewrite YS. assert (A := atan_bound (s * (L * d))). lra. }
  assert (E' : g = mk_mapping b (fun x => 1 / c * tan (c * (x - b_x0 b)) + b_x0 b)).
  { rewrite <- E. fold L. change (fun c0 : R => atan (s * L * c0) / L) with (F atan s L). rewrite Eo. reflexivity. }
  split; [exact E'|]. rewrite E'. cbn [g_map]. fold L. replace (c * L) with (L * c) by ring. rewrite YS at 1. rewrite tan_atan.
  replace (c * (b_x0 b - b_x0 b)) with 0 by ring. rewrite tan_0. unfold y. fold c d. field. repeat split; first [exact Cn | exact HL].
Qed.

(** As for the exponential mapping; monotone on the layer, where the mapping is used. *)
Theorem c39_tangential : forall it tol s b g, (1 <= it)%nat -> b_x0 b <> b_xn b -> mapping_tangential it tol s (Buffer b) = Ok g ->
  1 < s /\ g_x g = b /\ g_map g (b_x0 b) = b_x0 b /\
  (forall u v, inside (b_x0 b) (b_xn b) u -> inside (b_x0 b) (b_xn b) v -> u < v -> g_map g u < g_map g v) /\
  exists n, (S n <= it)%nat /\
    let f c := atan (s * (b_xn b - b_x0 b) * c) / (b_xn b - b_x0 b) in
    let d := Rabs (Nat.iter (S n) f (b_xn b - b_x0 b) - Nat.iter n f (b_xn b - b_x0 b)) in
    (S n = it \/ d < tol) /\
    Rabs (g_length g - s * b_length b) <= s * (b_length b * b_length b) / Rmin (b_length b * b_length b) (sqrt (s - 1) / s) * d.
Proof.
  intros it tol s b g Hit Hb H. destruct (tan_form it tol s b g Hit Hb H) as (n & N & S & D & C & Y & E & Ln). cbn zeta in *.
  set (L := b_xn b - b_x0 b) in *. set (c := Nat.iter (Datatypes.S n) (F atan s L) L) in *.
  split; [exact S|]. split; [rewrite E; reflexivity|]. split.
  { rewrite E. cbn [g_map]. replace (c * (b_x0 b - b_x0 b)) with 0 by ring. rewrite tan_0. ring. }
  split.
  { intros u v Iu Iv Q. rewrite E. cbn [g_map]. apply Rplus_lt_compat_r. unfold Rdiv. rewrite !Rmult_1_l.
    assert (R : forall t, inside (b_x0 b) (b_xn b) t -> 0 <= c * (t - b_x0 b) < PI / 2).
    { intros t It. unfold inside in It. unfold L in Y. destruct (Rtotal_order c 0) as [T|[T|T]]; [|contradiction|]; nra. }
    assert (Ru := R u Iu). assert (Rv := R v Iv).
    destruct (Rtotal_order c 0) as [T|[T|T]]; [|contradiction|].
    - assert (J : / c < 0) by (apply Rinv_lt_0_compat, T). assert (X : tan (c * (v - b_x0 b)) < tan (c * (u - b_x0 b))) by (apply tan_increasing; nra). nra.
    - assert (J : 0 < / c) by (apply Rinv_0_lt_compat, T). assert (X : tan (c * (u - b_x0 b)) < tan (c * (v - b_x0 b))) by (apply tan_increasing; nra). nra. }
  exists n. split; [exact N|]. split; [exact D|].
  assert (HL : L <> 0) by (unfold L; lra). assert (Lo := tan_low_pos s S).
  assert (LE := length_error atan s L _ S HL Lo atan_mono (atan_low s S) n). rewrite increment, Rabs_mult in LE.
  unfold g_length, b_length. fold L. replace (b_x0 (g_x g)) with (b_x0 b) by (rewrite E; reflexivity). replace (b_xn (g_x g)) with (b_xn b) by (rewrite E; reflexivity).
  rewrite Ln. replace (s * Rabs L) with (Rabs (s * L)) by (rewrite Rabs_mult, (Rabs_right s); lra).
  eapply Rle_trans; [apply Rabs_triang_inv2|]. eapply Rle_trans; [exact LE|]. right. unfold floor_.
  assert (LL' : Rabs L * Rabs L = L * L) by (rewrite <- Rabs_mult; apply Rabs_right; nra). rewrite <- LL'.
  assert (P := floor_pos L _ HL Lo). unfold floor_ in P. rewrite <- LL' in P. unfold F. field. lra.
Qed.
Print Assumptions c39_tangential.

Theorem c39_tangential_converges : forall s b eps, 1 < s -> b_x0 b <> b_xn b -> 0 < eps -> exists N tol0, 0 < tol0 /\
  forall it tol, (N <= it)%nat -> tol <= tol0 -> exists g, mapping_tangential it tol s (Buffer b) = Ok g /\ Rabs (g_length g - s * b_length b) < eps.
Proof.
  intros s b eps S Hb He. set (L := b_xn b - b_x0 b). assert (HL : L <> 0) by (unfold L; lra). assert (Lo := tan_low_pos s S).
  destruct (converges atan s L _ _ S HL Lo atan_mono (atan_low s S) (atan_top s L) eps He) as (N & t & T & C).
  exists (Datatypes.S N), t. split; [exact T|]. intros it tol Hit Ht.
  assert (exists g, mapping_tangential it tol s (Buffer b) = Ok g) as (g & Hg).
  { unfold mapping_tangential. destruct (Rlt_dec 1 s); [eexists; reflexivity | contradiction]. }
  exists g. split; [exact Hg|]. destruct (tan_form it tol s b g ltac:(lia) Hb Hg) as (n & Hn & _ & D & _ & _ & E & Ln). cbn zeta in *. fold L in D, E, Ln.
  specialize (C it tol n ltac:(lia) Ht D). unfold g_length, b_length. fold L.
  replace (b_x0 (g_x g)) with (b_x0 b) by (rewrite E; reflexivity). replace (b_xn (g_x g)) with (b_xn b) by (rewrite E; reflexivity).
  rewrite Ln. replace (s * Rabs L) with (Rabs (s * L)) by (rewrite Rabs_mult, (Rabs_right s); lra).
  eapply Rle_lt_trans; [apply Rabs_triang_inv2 | exact C].
Qed.
Print Assumptions c39_tangential_converges.

(** ** Deformation *)

(** Points before the layer are not moved, points behind it are moved by the growth of the layer. *)
Theorem c39_deformation : forall g x x0 xn, x0 <> xn -> g_x g = buffer_coord x x0 xn -> g_map g x0 = x0 ->
  (before x0 xn x -> deformation g = 0) /\ (behind x0 xn x -> deformation g = g_map g xn - xn) /\ (inside x0 xn x -> deformation g = g_map g x - x).
Proof.
  intros g x x0 xn N E Z. destruct (c37_clamped x x0 xn N) as (A & B & C & _). unfold deformation. rewrite E. split; [|split].
  - intros I. rewrite (A I), Z. ring.
  - intros I. rewrite (C I). ring.
  - intros I. rewrite (B I). ring.
Qed.
Print Assumptions c39_deformation.

(** The cartesian components of a radial mapping move a point radially by the radial deformation. *)
Theorem c39_polar : forall g x y sx sy r r0 rn, r0 <> rn -> g_x g = buffer_coord r r0 rn -> x <> sx -> y <> sy ->
  let d := sqrt ((x - sx) ^ 2 + (y - sy) ^ 2) in
  deformation (fst (polar_to_cartesian g x y sx sy)) = deformation g * ((x - sx) / d) /\
  deformation (snd (polar_to_cartesian g x y sx sy)) = deformation g * ((y - sy) / d).
Proof.
  intros g x z sx sy r r0 rn N E X Y d.
  assert (D : 0 < d). { unfold d. apply sqrt_lt_R0. assert (0 < (x - sx) ^ 2) by (assert (x - sx <> 0) by lra; nra). assert (0 <= (z - sy) ^ 2) by apply pow2_ge_0. lra. }
  assert (I : inside r0 rn (b_value (g_x g))).
  { rewrite E. destruct (c37_normalised r r0 rn N) as (B & V & _). cbn zeta in *. rewrite V. unfold inside.
    destruct (Rle_dec r0 rn); [left | right]; nra. }
  assert (Q : forall t, t <> 0 -> b_value (buffer_coord (b_value (g_x g) * t) (r0 * t) (rn * t)) = b_value (g_x g) * t).
  { intros t T. assert (N' : r0 * t <> rn * t) by (intros Q; apply N; apply (Rmult_eq_reg_r t); assumption).
    destruct (c37_clamped (b_value (g_x g) * t) (r0 * t) (rn * t) N') as (_ & C & _). apply C. unfold inside in *.
    destruct (Rle_dec 0 t); [destruct I; [left | right] | destruct I; [right | left]]; nra. }
  unfold polar_to_cartesian. fold d. cbn [fst snd]. unfold deformation at 1 3. cbn [g_x g_map].
  replace (b_x0 (g_x g)) with r0 by (rewrite E; reflexivity). replace (b_xn (g_x g)) with rn by (rewrite E; reflexivity).
  assert (Tx : (x - sx) / d <> 0) by (apply Rmult_integral_contrapositive_currified; [lra | apply Rinv_neq_0_compat; lra]).
  assert (Ty : (z - sy) / d <> 0) by (apply Rmult_integral_contrapositive_currified; [lra | apply Rinv_neq_0_compat; lra]).
  rewrite !Q by assumption. unfold deformation. split; ring.
Qed.
Print Assumptions c39_polar.

(** On the coordinate axes through the centre the claim fails: the cartesian layer has no extent there, so that its
    coordinate divides by zero. *)
Theorem c39_polar_axis_refuted : forall g y sx sy,
  let c := g_x (fst (polar_to_cartesian g sx y sx sy)) in b_xn c - b_x0 c = 0.
Proof. intros g z sx sy. unfold polar_to_cartesian. cbn. unfold Rdiv. rewrite Rminus_eq_0. ring. Qed.
Print Assumptions c39_polar_axis_refuted.

Example c39_example : exists g, mapping_linear 3 (Buffer (buffer_coord 7 4 2)) = Ok g /\ g_length g = 6.
Proof.
  unfold mapping_linear. destruct (Rlt_dec 1 3); [|lra]. eexists. split; [reflexivity|]. unfold g_length. cbn. rewrite Rabs_left; lra.
Qed.

(** The exponential and tangential mappings exist for the settings of the code. *)
Example c39_example_fixpoint : forall tol, exists g g', mapping_exponential 100 tol 3 (Buffer (buffer_coord 7 4 2)) = Ok g /\ mapping_tangential 100 tol 3 (Buffer (buffer_coord 7 4 2)) = Ok g'.
Proof. intros tol. unfold mapping_exponential, mapping_tangential. destruct (Rlt_dec 1 3); [|lra]. eexists. eexists. split; reflexivity. Qed.
