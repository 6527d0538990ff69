(** Properties C37, C38 and C39 (buffer coordinates, sponge profiles, grid stretching). *)
From Coq Require Import Reals List Bool Arith Lia Lra.
From Coquelicot Require Import Coquelicot.
From Verif Require Import Base M_Bla M_Buffer P_Bla.
Import ListNotations.
Open Scope R_scope.

(** * C37 *)

Lemma interval_01 : forall t, interval t 0 1 = Rmin (Rmax t 0) 1.
Proof. intros t. unfold interval, ifpos, Rmin, Rmax. repeat (destruct (Rlt_dec _ _) || destruct (Rle_dec _ _)); lra. Qed.

(** Position of a coordinate relative to the layer. *)
Definition before (x0 xn x : R) : Prop := (xn - x0) * (x - x0) <= 0.
Definition inside (x0 xn x : R) : Prop := x0 <= x <= xn \/ xn <= x <= x0.
Definition behind (x0 xn x : R) : Prop := 0 <= (xn - x0) * (x - xn).

Lemma scaled : forall x x0 xn, x0 <> xn -> (x - x0) / (xn - x0) = (xn - x0) * (x - x0) / ((xn - x0) * (xn - x0)).
Proof. intros. field. lra. Qed.

Lemma square_pos : forall x0 xn, x0 <> xn -> 0 < (xn - x0) * (xn - x0).
Proof. intros x0 xn H. assert (xn - x0 <> 0) by lra. nra. Qed.

(** The buffer coordinate in all three cases, for layers in either direction. *)
Theorem c37_clamped : forall x x0 xn, x0 <> xn ->
  (before x0 xn x -> b_value (buffer_coord x x0 xn) = x0) /\
  (inside x0 xn x -> b_value (buffer_coord x x0 xn) = x) /\
  (behind x0 xn x -> b_value (buffer_coord x x0 xn) = xn) /\
  (before x0 xn x \/ inside x0 xn x \/ behind x0 xn x).
Proof.
  intros x x0 xn N. assert (S := square_pos x0 xn N). unfold buffer_coord. cbn [b_value]. rewrite interval_01. split; [|split; [|split]].
  - intros B. unfold before in B. assert (T : (x - x0) / (xn - x0) <= 0).
    { rewrite scaled by exact N. apply (Rmult_le_reg_r ((xn - x0) * (xn - x0))); [exact S|]. unfold Rdiv. rewrite Rmult_assoc, Rinv_l by lra. lra. }
    rewrite Rmax_right by exact T. rewrite Rmin_left by lra. ring.
  - intros I. assert (T : 0 <= (x - x0) / (xn - x0) <= 1).
    { rewrite scaled by exact N. split.
      - apply Rmult_le_pos; [unfold inside in I; nra | left; apply Rinv_0_lt_compat; exact S].
      - apply (Rmult_le_reg_r ((xn - x0) * (xn - x0))); [exact S|]. unfold Rdiv. rewrite Rmult_assoc, Rinv_l by lra. unfold inside in I. nra. }
    rewrite Rmax_left by lra. rewrite Rmin_left by lra. field. lra.
  - intros B. unfold behind in B. assert (T : 1 <= (x - x0) / (xn - x0)).
    { rewrite scaled by exact N. apply (Rmult_le_reg_r ((xn - x0) * (xn - x0))); [exact S|]. unfold Rdiv. rewrite Rmult_assoc, Rinv_l by lra. nra. }
    rewrite Rmax_left by lra. rewrite Rmin_right by lra. ring.
  - unfold before, inside, behind. destruct (Rle_dec x0 xn) as [L|L].
    + destruct (Rle_dec x x0); [left; nra|]. destruct (Rle_dec x xn); [right; left; lra | right; right; nra].
    + destruct (Rle_dec x0 x); [left; nra|]. destruct (Rle_dec xn x); [right; left; lra | right; right; nra].
Qed.
Print Assumptions c37_clamped.

Lemma normalised_value : forall x x0 xn, x0 <> xn -> normalised (buffer_coord x x0 xn) = Rmin (Rmax ((x - x0) / (xn - x0)) 0) 1.
Proof. intros. unfold normalised, buffer_coord. cbn [b_value b_x0 b_xn]. rewrite interval_01. field. lra. Qed.

(** The normalised coordinate runs from 0 to 1 through the layer. *)
Theorem c37_normalised : forall x x0 xn, x0 <> xn -> let n := normalised (buffer_coord x x0 xn) in
  0 <= n <= 1 /\ b_value (buffer_coord x x0 xn) = x0 + n * (xn - x0) /\
  (before x0 xn x -> n = 0) /\ (inside x0 xn x -> n = (x - x0) / (xn - x0)) /\ (behind x0 xn x -> n = 1).
Proof.
  intros x x0 xn N n. destruct (c37_clamped x x0 xn N) as (A & B & C & _). split.
  - unfold n. rewrite normalised_value by exact N. unfold Rmin, Rmax. destruct (Rle_dec _ 0); destruct (Rle_dec _ 1); lra.
  - split; [unfold n, normalised; cbn [b_x0 b_xn buffer_coord]; field; lra|]. unfold n, normalised. cbn [b_x0 b_xn buffer_coord].
    fold (buffer_coord x x0 xn). split; [|split].
    + intros H. rewrite (A H). field. lra.
    + intros H. rewrite (B H). reflexivity.
    + intros H. rewrite (C H). field. lra.
Qed.
Print Assumptions c37_normalised.

(** It is monotone in the direction of the layer, the buffer coordinate always is. *)
Theorem c37_monotone : forall x y x0 xn, x0 <> xn -> x <= y ->
  b_value (buffer_coord x x0 xn) <= b_value (buffer_coord y x0 xn) /\
  (x0 < xn -> normalised (buffer_coord x x0 xn) <= normalised (buffer_coord y x0 xn)) /\
  (xn < x0 -> normalised (buffer_coord y x0 xn) <= normalised (buffer_coord x x0 xn)).
Proof.
  intros x y x0 xn N L.
  assert (M : forall s t, s <= t -> Rmin (Rmax s 0) 1 <= Rmin (Rmax t 0) 1).
  { intros s t H. unfold Rmin, Rmax. repeat destruct (Rle_dec _ _); lra. }
  assert (A : x0 < xn -> normalised (buffer_coord x x0 xn) <= normalised (buffer_coord y x0 xn)).
  { intros D. rewrite !normalised_value by exact N. apply M. apply Rmult_le_compat_r; [left; apply Rinv_0_lt_compat; lra | lra]. }
  assert (B : xn < x0 -> normalised (buffer_coord y x0 xn) <= normalised (buffer_coord x x0 xn)).
  { intros D. rewrite !normalised_value by exact N. apply M.
    replace ((y - x0) / (xn - x0)) with ((x0 - y) / (x0 - xn)) by (field; lra). replace ((x - x0) / (xn - x0)) with ((x0 - x) / (x0 - xn)) by (field; lra).
    apply Rmult_le_compat_r; [left; apply Rinv_0_lt_compat; lra | lra]. }
  split; [|split; assumption].
  destruct (c37_normalised x x0 xn N) as (_ & Ex & _), (c37_normalised y x0 xn N) as (_ & Ey & _). rewrite Ex, Ey.
  destruct (Rtotal_order x0 xn) as [D|[D|D]]; [specialize (A D); nra | contradiction | specialize (B D); nra].
Qed.
Print Assumptions c37_monotone.

(** The axis and radial coordinates clamp the shifted coordinate and the distance from the shift. *)
Theorem c37_coordinates : forall x0 xn, x0 <> xn ->
  (forall x shift, inside x0 xn (x - shift) -> b_value (buffer_axis x x0 xn shift) = x - shift) /\
  (forall x y sx sy, inside x0 xn (sqrt ((x - sx) ^ 2 + (y - sy) ^ 2)) ->
     b_value (buffer_radial [x; y] [sx; sy] x0 xn) = sqrt ((x - sx) ^ 2 + (y - sy) ^ 2)) /\
  (forall x y z sx sy sz, inside x0 xn (sqrt ((x - sx) ^ 2 + ((y - sy) ^ 2 + (z - sz) ^ 2))) ->
     b_value (buffer_radial [x; y; z] [sx; sy; sz] x0 xn) = sqrt ((x - sx) ^ 2 + ((y - sy) ^ 2 + (z - sz) ^ 2))).
Proof.
  intros x0 xn N. split; [|split].
  - intros x s I. apply (c37_clamped _ _ _ N), I.
  - intros x y sx sy I. unfold buffer_radial. cbn [squares]. rewrite Rplus_0_r. apply (c37_clamped _ _ _ N), I.
  - intros x y z sx sy sz I. unfold buffer_radial. cbn [squares]. rewrite Rplus_0_r. apply (c37_clamped _ _ _ N), I.
Qed.
Print Assumptions c37_coordinates.

Example c37_example : b_value (buffer_axis 7 4 2 4) = 3 /\ b_value (buffer_axis 1 2 4 0) = 2 /\ b_value (buffer_axis 9 2 4 0) = 4.
Proof.
  split; [|split].
  - destruct (c37_coordinates 4 2 ltac:(lra)) as (A & _). rewrite A; unfold inside; lra.
  - unfold buffer_axis. apply (c37_clamped (1 - 0) 2 4 ltac:(lra)). unfold before. lra.
  - unfold buffer_axis. apply (c37_clamped (9 - 0) 2 4 ltac:(lra)). unfold behind. lra.
Qed.

(** * C38 *)

(** The profiles as functions of the normalised coordinate. *)
Definition penta (t : R) : R := 6 * t ^ 5 - 15 * t ^ 4 + 10 * t ^ 3.

Lemma pow_01 : forall n t, 0 <= t <= 1 -> 0 <= t ^ n <= 1.
Proof.
  intros n t [A B]. split; [apply pow_le, A|]. rewrite <- (pow1 n). apply pow_incr. lra.
Qed.

Lemma penta_derive : forall t, is_derive penta t (30 * t ^ 2 * (1 - t) ^ 2).
Proof. intros t. unfold penta. auto_derive; [exact I|]. ring. Qed.

Lemma penta_mono : forall s t, 0 <= s -> s <= t -> t <= 1 -> penta s <= penta t.
Proof.
  intros s t A B C. destruct (MVT_gen penta s t (fun x => 30 * x ^ 2 * (1 - x) ^ 2)) as (c & _ & E).
  - intros x _. apply penta_derive.
  - intros x _. apply derivable_continuous_pt. exists (30 * x ^ 2 * (1 - x) ^ 2). apply is_derive_Reals, penta_derive.
  - assert (D : 0 <= 30 * c ^ 2 * (1 - c) ^ 2) by (apply Rmult_le_pos; [apply Rmult_le_pos; [lra | apply pow2_ge_0] | apply pow2_ge_0]).
    assert (0 <= penta t - penta s) by (rewrite E; apply Rmult_le_pos; lra). lra.
Qed.

Lemma penta_01 : forall t, 0 <= t <= 1 -> 0 <= penta t <= 1.
Proof.
  intros t [A B]. assert (X := penta_mono 0 t ltac:(lra) A B). assert (Y := penta_mono t 1 A B ltac:(lra)). unfold penta in *. lra.
Qed.

(** Both profiles vanish at the start, equal the weight at the end and stay in between. *)
Theorem c38_bounds : forall w order x x0 xn, 0 <= w -> (1 <= order)%nat -> x0 <> xn ->
  let c := Buffer (buffer_coord x x0 xn) in
  exists p q, sponge_polynomial w c order = Ok p /\ sponge_penta w c = Ok q /\
    0 <= p <= w /\ 0 <= q <= w /\
    (before x0 xn x -> p = 0 /\ q = 0) /\ (behind x0 xn x -> p = w /\ q = w).
Proof.
  intros w order x x0 xn W O N c. destruct (c37_normalised x x0 xn N) as (B & _ & Z & _ & E). cbn zeta in *. eexists. eexists. split; [reflexivity|]. split; [reflexivity|].
  fold (penta (normalised (buffer_coord x x0 xn))). set (n := normalised (buffer_coord x x0 xn)) in *.
  assert (P := pow_01 order n B). assert (Q := penta_01 n B). split; [nra|]. split; [nra|]. split.
  - intros H. rewrite (Z H). split; [|unfold penta; ring]. destruct order; [lia|]. cbn. ring.
  - intros H. rewrite (E H). rewrite pow1. unfold penta. split; ring.
Qed.
Print Assumptions c38_bounds.

(** Both profiles grow from the start to the end of the layer. *)
Theorem c38_monotone : forall w order x y x0 xn p p' q q', 0 <= w -> x0 <> xn -> (x0 < xn /\ x <= y \/ xn < x0 /\ y <= x) ->
  sponge_polynomial w (Buffer (buffer_coord x x0 xn)) order = Ok p -> sponge_polynomial w (Buffer (buffer_coord y x0 xn)) order = Ok p' ->
  sponge_penta w (Buffer (buffer_coord x x0 xn)) = Ok q -> sponge_penta w (Buffer (buffer_coord y x0 xn)) = Ok q' -> p <= p' /\ q <= q'.
Proof.
  intros w order x y x0 xn p p' q q' W N D P P' Q Q'. cbn in P, P', Q, Q'. injection P as <-. injection P' as <-. injection Q as <-. injection Q' as <-.
  assert (M : normalised (buffer_coord x x0 xn) <= normalised (buffer_coord y x0 xn)).
  { destruct D as [[D L]|[D L]]; [apply (c37_monotone x y x0 xn N L), D | apply (c37_monotone y x x0 xn N L), D]. }
  destruct (c37_normalised x x0 xn N) as (B & _), (c37_normalised y x0 xn N) as (B' & _). cbn zeta in *.
  split; apply Rmult_le_compat_l; try exact W.
  - apply pow_incr. split; [apply B | exact M].
  - apply penta_mono; [apply B | exact M | apply B'].
Qed.
Print Assumptions c38_monotone.

(** The constant function is the largest of the profiles and the polynomial of order zero. *)
Theorem c38_constant : forall w x x0 xn order p q, 0 <= w -> x0 <> xn -> let c := Buffer (buffer_coord x x0 xn) in
  sponge_polynomial w c order = Ok p -> sponge_penta w c = Ok q ->
  p <= sponge_constant w /\ q <= sponge_constant w /\ sponge_polynomial w c 0 = Ok (sponge_constant w).
Proof.
  intros w x x0 xn order p q W N c P Q. cbn in P, Q. injection P as <-. injection Q as <-. unfold sponge_constant.
  destruct (c37_normalised x x0 xn N) as (B & _). cbn zeta in B. set (n := normalised (buffer_coord x x0 xn)) in *.
  assert (Pw := pow_01 order n B). assert (Qw := penta_01 n B). split; [nra|]. split.
  - fold (penta n). assert (0 <= w * (1 - penta n)) by (apply Rmult_le_pos; lra). unfold penta in *. nra.
  - cbn. f_equal. ring.
Qed.
Print Assumptions c38_constant.

(** Coordinates of any other kind raise. *)
Theorem c38_type_checked : forall w order, sponge_polynomial w NoBuffer order = Err TypeError /\ sponge_penta w NoBuffer = Err TypeError.
Proof. split; reflexivity. Qed.
Print Assumptions c38_type_checked.

(** A quadratic bound makes the derivative vanish. *)
Lemma derive_zero : forall f x k (d : posreal), (forall y, Rabs (y - x) < d -> Rabs (f y - f x) <= k * (y - x) ^ 2) -> is_derive f x 0.
Proof.
  intros f x k d H. apply is_derive_Reals. intros eps He.
  assert (K : 0 < Rabs k + 1) by (assert (Q := Rabs_pos k); lra).
  assert (M : 0 < Rmin d (eps / (Rabs k + 1))) by (apply Rmin_pos; [apply cond_pos | apply Rdiv_lt_0_compat; assumption]).
  exists (mkposreal _ M). intros h Hh Lh. cbn in Lh.
  assert (L1 : Rabs h < d) by (eapply Rlt_le_trans; [exact Lh | apply Rmin_l]).
  assert (L2 : Rabs h < eps / (Rabs k + 1)) by (eapply Rlt_le_trans; [exact Lh | apply Rmin_r]).
  assert (B := H (x + h)). replace (x + h - x) with h in B by ring. specialize (B L1).
  rewrite Rminus_0_r. unfold Rdiv. rewrite Rabs_mult, Rabs_inv.
  assert (P : 0 < Rabs h) by (apply Rabs_pos_lt, Hh). apply (Rmult_lt_reg_r (Rabs h)); [exact P|].
  rewrite Rmult_assoc, Rinv_l, Rmult_1_r by lra. eapply Rle_lt_trans; [exact B|].
  assert (E : h ^ 2 = Rabs h * Rabs h) by (rewrite <- Rabs_mult; rewrite Rabs_right; [ring | nra]). rewrite E, <- Rmult_assoc.
  apply Rmult_lt_compat_r; [exact P|]. apply Rle_lt_trans with ((Rabs k + 1) * Rabs h).
  - apply Rmult_le_compat_r; [lra|]. assert (Q := Rle_abs k). lra.
  - apply (Rmult_lt_compat_l (Rabs k + 1)) in L2; [|exact K]. replace ((Rabs k + 1) * (eps / (Rabs k + 1))) with eps in L2 by (field; lra). exact L2.
Qed.

(** The clamped normalised coordinate and its profile as functions of the physical coordinate. *)
Definition ramp (t : R) : R := Rmin (Rmax t 0) 1.
(** First derivative of the clamped profile: a profile of its own, zero outside the layer. *)
Definition slope (t : R) : R := 30 * ramp t ^ 2 * (1 - ramp t) ^ 2.

Lemma ramp_cases : forall t, (t <= 0 /\ ramp t = 0) \/ (0 <= t <= 1 /\ ramp t = t) \/ (1 <= t /\ ramp t = 1).
Proof. intros t. unfold ramp, Rmin, Rmax. repeat destruct (Rle_dec _ _); lra. Qed.

Lemma clamped_derive : forall (f f' : R -> R) t, (forall s, is_derive f s (f' s)) -> 
  (exists k, 0 <= k /\ forall s, 0 <= s <= 1 -> Rabs (f s - f 0) <= k * s ^ 2) -> (exists k, 0 <= k /\ forall s, 0 <= s <= 1 -> Rabs (f s - f 1) <= k * (s - 1) ^ 2) ->
  f' 0 = 0 -> f' 1 = 0 -> is_derive (fun s => f (ramp s)) t (f' (ramp t)).
Proof.
  intros f f' t D (k & K & B0) (k1 & K1 & B1) Z0 Z1.
  destruct (Rtotal_order t 0) as [T|[T|T]].
  - replace (ramp t) with 0 by (destruct (ramp_cases t) as [[? ->]|[[? ->]|[? ->]]]; lra). rewrite Z0.
    apply (is_derive_ext_loc (fun _ => f 0)); [|apply (@is_derive_const R_AbsRing)].
    exists (mkposreal (- t) ltac:(lra)). intros s Hs. cbn in Hs. unfold ball in Hs. cbn in Hs. unfold AbsRing_ball, abs, minus, plus, opp in Hs. cbn in Hs.
    apply Rabs_def2 in Hs. f_equal. destruct (ramp_cases s) as [[? ->]|[[? ->]|[? ->]]]; lra.
  - subst t. replace (ramp 0) with 0 by (destruct (ramp_cases 0) as [[? ->]|[[? ->]|[? ->]]]; lra). rewrite Z0.
    apply (derive_zero _ 0 k (mkposreal 1 Rlt_0_1)). intros y Hy. cbn in Hy. apply Rabs_def2 in Hy.
    replace (ramp 0) with 0 by (destruct (ramp_cases 0) as [[? ->]|[[? ->]|[? ->]]]; lra). rewrite Rminus_0_r.
    destruct (ramp_cases y) as [[Hc ->]|[[Hc ->]|[Hc ->]]].
    + rewrite Rminus_eq_0, Rabs_R0. apply Rmult_le_pos; [exact K | apply pow2_ge_0].
    + apply B0. lra.
    + lra.
  - destruct (Rtotal_order t 1) as [U|[U|U]].
    + replace (ramp t) with t by (destruct (ramp_cases t) as [[? ->]|[[? ->]|[? ->]]]; lra).
      apply (is_derive_ext_loc f); [|apply D].
      assert (M : 0 < Rmin t (1 - t)) by (apply Rmin_pos; lra). exists (mkposreal _ M). intros s Hs. cbn in Hs. unfold ball in Hs. cbn in Hs. unfold AbsRing_ball, abs, minus, plus, opp in Hs. cbn in Hs.
      assert (A1 := Rmin_l t (1 - t)). assert (A2 := Rmin_r t (1 - t)). apply Rabs_def2 in Hs. f_equal. destruct (ramp_cases s) as [[? ->]|[[? ->]|[? ->]]]; lra.
    + subst t. replace (ramp 1) with 1 by (destruct (ramp_cases 1) as [[? ->]|[[? ->]|[? ->]]]; lra). rewrite Z1.
      apply (derive_zero _ 1 k1 (mkposreal 1 Rlt_0_1)). intros y Hy. cbn in Hy. apply Rabs_def2 in Hy.
      replace (ramp 1) with 1 by (destruct (ramp_cases 1) as [[? ->]|[[? ->]|[? ->]]]; lra).
      destruct (ramp_cases y) as [[Hc ->]|[[Hc ->]|[Hc ->]]].
      * lra.
      * apply B1. lra.
      * rewrite Rminus_eq_0, Rabs_R0. apply Rmult_le_pos; [exact K1 | apply pow2_ge_0].
    + replace (ramp t) with 1 by (destruct (ramp_cases t) as [[? ->]|[[? ->]|[? ->]]]; lra). rewrite Z1.
      apply (is_derive_ext_loc (fun _ => f 1)); [|apply (@is_derive_const R_AbsRing)].
      exists (mkposreal (t - 1) ltac:(lra)). intros s Hs. cbn in Hs. unfold ball in Hs. cbn in Hs. unfold AbsRing_ball, abs, minus, plus, opp in Hs. cbn in Hs.
      apply Rabs_def2 in Hs. f_equal. destruct (ramp_cases s) as [[? ->]|[[? ->]|[? ->]]]; lra.
Qed.

Lemma quadratic_bound : forall a b s, 0 <= a -> Rabs b <= a -> Rabs (b * s ^ 2) <= a * s ^ 2.
Proof. intros a b s A B. rewrite Rabs_mult, (Rabs_right (s ^ 2)) by (apply Rle_ge, pow2_ge_0). apply Rmult_le_compat_r; [apply pow2_ge_0 | exact B]. Qed.

Lemma poly_bound : forall s c5 c4 c3 c2, 0 <= s <= 1 -> Rabs (c5 * s ^ 3 + c4 * s ^ 2 + c3 * s + c2) <= Rabs c5 + Rabs c4 + Rabs c3 + Rabs c2.
Proof.
  intros s c5 c4 c3 c2 H. assert (P := pow_01 3 s H). assert (Q := pow_01 2 s H).
  assert (A : forall c t, 0 <= t <= 1 -> Rabs (c * t) <= Rabs c).
  { intros c t Ht. rewrite Rabs_mult, (Rabs_right t) by lra. rewrite <- (Rmult_1_r (Rabs c)) at 2. apply Rmult_le_compat_l; [apply Rabs_pos | lra]. }
  eapply Rle_trans; [apply Rabs_triang|]. apply Rplus_le_compat_r. eapply Rle_trans; [apply Rabs_triang|]. apply Rplus_le_compat; [|apply A, H].
  eapply Rle_trans; [apply Rabs_triang|]. apply Rplus_le_compat; apply A; assumption.
Qed.

(** The penta profile is twice differentiable in the physical coordinate everywhere, also across both ends of the
    layer; outside the layer and at its ends both derivatives vanish. *)
Theorem c38_penta_smooth : forall w x0 xn, x0 <> xn -> exists f' f'' : R -> R,
  (forall x, is_derive (fun x => match sponge_penta w (Buffer (buffer_coord x x0 xn)) with Ok v => v | Err _ => 0 end) x (f' x)) /\
  (forall x, is_derive f' x (f'' x)) /\
  (forall x, before x0 xn x \/ behind x0 xn x -> f' x = 0 /\ f'' x = 0) /\
  (forall x, inside x0 xn x -> let t := (x - x0) / (xn - x0) in f' x = w * (30 * t ^ 2 * (1 - t) ^ 2) / (xn - x0)).
Proof.
  intros w x0 xn N. set (L := xn - x0). assert (HL : L <> 0) by (unfold L; lra).
  set (g := fun t => 60 * t * (1 - t) * (1 - 2 * t)).
  exists (fun x => w * slope ((x - x0) / L) / L), (fun x => w * g (ramp ((x - x0) / L)) / (L * L)).
  assert (Lin : forall x, is_derive (fun x => (x - x0) / L) x (/ L)) by (intros x; auto_derive; [exact I | field; exact HL]).
  split; [|split; [|split]].
  - intros x. apply (is_derive_ext (fun x => w * penta (ramp ((x - x0) / L)))).
    + intros t. unfold sponge_penta. cbn zeta. rewrite normalised_value by exact N. reflexivity.
    + assert (C := clamped_derive penta (fun t => 30 * t ^ 2 * (1 - t) ^ 2) ((x - x0) / L) penta_derive).
      replace (w * slope ((x - x0) / L) / L) with (w * (/ L * slope ((x - x0) / L))) by (field; exact HL).
      apply (is_derive_scal (fun x => penta (ramp ((x - x0) / L)))). apply (is_derive_comp (fun t => penta (ramp t))); [|apply Lin]. apply C.
      * exists 31. split; [lra|]. intros s Hs. replace (penta s - penta 0) with ((6 * s ^ 3 + (-15) * s ^ 2 + 10 * s + 0) * s ^ 2) by (unfold penta; ring).
        apply quadratic_bound; [lra|]. eapply Rle_trans; [apply poly_bound, Hs|]. rewrite (Rabs_left (-15)), !Rabs_right by lra. lra.
      * exists 31. split; [lra|]. intros s Hs. replace (penta s - penta 1) with ((6 * (1 - s) ^ 3 + (-15) * (1 - s) ^ 2 + 10 * (1 - s) + 0) * - (s - 1) ^ 2) by (unfold penta; ring).
        rewrite <- Ropp_mult_distr_r, Rabs_Ropp. apply quadratic_bound; [lra|]. eapply Rle_trans; [apply poly_bound; lra|]. rewrite (Rabs_left (-15)), !Rabs_right by lra. lra.
      * ring.
      * ring.
  - intros x. unfold slope.
    set (p := fun t => 30 * t ^ 2 * (1 - t) ^ 2).
    assert (E : forall t : R, w / L * p (ramp ((t - x0) / L)) = w * (30 * ramp ((t - x0) / L) ^ 2 * (1 - ramp ((t - x0) / L)) ^ 2) / L) by (intros t; unfold p; field; exact HL).
    apply (is_derive_ext (fun x => w / L * p (ramp ((x - x0) / L)))); [exact E|].
    replace (w * g (ramp ((x - x0) / L)) / (L * L)) with (w / L * (/ L * g (ramp ((x - x0) / L)))) by (field; exact HL).
    apply (is_derive_scal (fun x => p (ramp ((x - x0) / L)))). apply (is_derive_comp (fun t => p (ramp t))); [|apply Lin].
    apply (clamped_derive p g ((x - x0) / L)).
    + intros s. unfold p, g. auto_derive; [exact I|]. ring.
    + exists 120. split; [lra|]. intros s Hs. replace (p s - p 0) with ((0 * s ^ 3 + 30 * s ^ 2 + (-60) * s + 30) * s ^ 2) by (unfold p; ring).
      apply quadratic_bound; [lra|]. eapply Rle_trans; [apply poly_bound, Hs|]. rewrite (Rabs_left (-60)), !Rabs_right by lra. lra.
    + exists 120. split; [lra|]. intros s Hs. replace (p s - p 1) with ((0 * s ^ 3 + 30 * s ^ 2 + 0 * s + 0) * (s - 1) ^ 2) by (unfold p; ring).
      apply quadratic_bound; [lra|]. eapply Rle_trans; [apply poly_bound, Hs|]. rewrite !Rabs_right by lra. lra.
    + unfold g. ring.
    + unfold g. ring.
  - intros x H. destruct (c37_normalised x x0 xn N) as (_ & _ & A & _ & B). cbn zeta in *.
    unfold slope. fold L. change (ramp ((x - x0) / L)) with (Rmin (Rmax ((x - x0) / (xn - x0)) 0) 1). rewrite <- normalised_value by exact N.
    destruct H as [H|H]; [rewrite (A H) | rewrite (B H)]; unfold g; split; field; exact HL.
  - intros x H t. destruct (c37_normalised x x0 xn N) as (_ & _ & _ & A & _). cbn zeta in *.
    unfold slope. change (ramp ((x - x0) / L)) with (Rmin (Rmax ((x - x0) / (xn - x0)) 0) 1). rewrite <- normalised_value by exact N.
    rewrite (A H). fold t. reflexivity.
Qed.
Print Assumptions c38_penta_smooth.

Example c38_example : sponge_penta 3 (Buffer (buffer_coord 1 0 2)) = Ok (3 / 2).
Proof.
  cbn. destruct (c37_normalised 1 0 2 ltac:(lra)) as (_ & _ & _ & A & _). cbn zeta in A. rewrite A by (unfold inside; lra). f_equal. field.
Qed.
