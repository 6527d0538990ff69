(** C75: geometry of the unstructured cylinder mesh. *)
From Coq Require Import Reals Lra Lia String List Bool Classical.
From Coquelicot Require Import Coquelicot.
From Verif Require Import Base M_Cylinder S_Cylinder.
Import ListNotations.
Local Open Scope R_scope.

(** ** Sets of points *)

Lemma in_minus : forall s t p, in_shape (minus_ s t) p <-> in_shape s p /\ ~ in_shape t p.
Proof.
  intros s t p. unfold in_shape at 1 2, minus_. split.
  - intros (f & I & C). apply in_map_iff in I. destruct I as (g & <- & I). cbn [covers] in C.
    split; [exists g; split; [exact I|apply C]|apply C].
  - intros ((g & I & C) & N). eexists. split; [apply in_map_iff; exists g; split; [reflexivity|exact I]|].
    cbn [covers]. split; assumption.
Qed.

Lemma in_times : forall s t p, in_shape (times s t) p <-> in_shape s p /\ in_shape t p.
Proof.
  intros s t p. unfold in_shape at 1 2, times. split.
  - intros (f & I & C). apply in_map_iff in I. destruct I as (g & <- & I). cbn [covers] in C.
    split; [exists g; split; [exact I|apply C]|apply C].
  - intros ((g & I & C) & N). eexists. split; [apply in_map_iff; exists g; split; [reflexivity|exact I]|].
    cbn [covers]. split; assumption.
Qed.

Lemma in_named : forall n s p, in_shape (named n s) p <-> in_shape s p.
Proof.
  intros n s p. unfold in_shape, named. split.
  - intros (f & I & C). apply in_map_iff in I. destruct I as (g & <- & I). exists g. split; assumption.
  - intros (g & I & C). eexists. split; [apply in_map_iff; exists g; split; [reflexivity|exact I]|exact C].
Qed.

Lemma in_sized : forall h s p, in_shape (sized h s) p <-> in_shape s p.
Proof.
  intros n s p. unfold in_shape, sized. split.
  - intros (f & I & C). apply in_map_iff in I. destruct I as (g & <- & I). exists g. split; assumption.
  - intros (g & I & C). eexists. split; [apply in_map_iff; exists g; split; [reflexivity|exact I]|exact C].
Qed.

Lemma in_glue : forall l p, in_shape (glue l) p <-> exists s, In s l /\ in_shape s p.
Proof.
  intros l p. unfold in_shape at 1, glue. split.
  - intros (f & I & C). apply in_concat in I. destruct I as (s & I & J). exists s. split; [exact I|].
    exists f. split; assumption.
  - intros (s & I & f & J & C). exists f. split; [apply in_concat; exists s; split; assumption|exact C].
Qed.

Lemma in_glue2 : forall s t p, in_shape (glue [s; t]) p <-> in_shape s p \/ in_shape t p.
Proof.
  intros s t p. rewrite in_glue. split.
  - intros (x & [<- | [<- | []]] & H); [left|right]; exact H.
  - intros [H|H]; [exists s|exists t]; (split; [|exact H]); [left|right; left]; reflexivity.
Qed.

Lemma in_one : forall f p, in_shape [f] p <-> covers f p.
Proof.
  intros f p. split; [intros (g & [<- | []] & C); exact C|intro C; exists f; split; [left; reflexivity|exact C]].
Qed.

Lemma in_circle : forall r p, in_shape [circle r] p <-> square_distance p <= r ^ 2.
Proof. intros. rewrite in_one. reflexivity. Qed.

(** ** Ladders of radii *)

Lemma linspace_length : forall a b n, length (linspace a b n) = S n.
Proof. intros. unfold linspace. rewrite map_length, seq_length. lia. Qed.

Lemma linspace_nth : forall a b n i, (i <= n)%nat ->
  nth_error (linspace a b n) i = Some (a + (b - a) * (INR i / INR n)).
Proof.
  intros a b n i H. unfold linspace. rewrite nth_error_map.
  rewrite (nth_error_nth' _ 0%nat) by (rewrite seq_length; lia).
  rewrite seq_nth by lia. reflexivity.
Qed.

Lemma frac_bounds : forall i n, (i <= n)%nat -> (1 <= n)%nat -> 0 <= INR i / INR n <= 1.
Proof.
  intros i n H N. assert (0 < INR n) by (apply lt_0_INR; lia).
  assert (INR i <= INR n) by (apply le_INR; lia). assert (0 <= INR i) by apply pos_INR.
  split.
  - apply Rmult_le_pos; [lra|]. left. now apply Rinv_0_lt_compat.
  - apply Rmult_le_reg_r with (INR n); [assumption|]. unfold Rdiv. rewrite Rmult_assoc, Rinv_l, Rmult_1_r by lra. lra.
Qed.

Lemma frac_lt : forall i j n, (i < j)%nat -> (1 <= n)%nat -> INR i / INR n < INR j / INR n.
Proof.
  intros i j n H N. apply Rmult_lt_compat_r; [|now apply lt_INR].
  apply Rinv_0_lt_compat. apply lt_0_INR. lia.
Qed.

Lemma power_0 : forall g, 0 < g -> power 0 g = 0.
Proof.
  intros g H. unfold power. destruct (Req_EM_T 0 0) as [_|N]; [|now contradiction N].
  destruct (Req_EM_T g 0); [lra|reflexivity].
Qed.

Lemma power_1 : forall g, power 1 g = 1.
Proof.
  intros g. unfold power. destruct (Req_EM_T 1 0); [lra|]. unfold Rpower. rewrite ln_1, Rmult_0_r. apply exp_0.
Qed.

Lemma power_pos : forall x g, 0 < x -> power x g = Rpower x g.
Proof. intros x g H. unfold power. destruct (Req_EM_T x 0); [lra|reflexivity]. Qed.

Lemma power_lt : forall x y g, 0 <= x -> x < y -> 0 < g -> power x g < power y g.
Proof.
  intros x y g X L G. rewrite (power_pos y) by lra.
  destruct (Req_dec x 0) as [->|N].
  - rewrite power_0 by exact G. apply exp_pos.
  - rewrite power_pos by lra. unfold Rpower. apply exp_increasing. apply Rmult_lt_compat_l; [exact G|].
    apply ln_increasing; lra.
Qed.

Definition radii (bl tr g : R) (n : nat) : list R := map (fun x => bl + (tr - bl) * power x g) (linspace 0 1 n).

Lemma tr_radii_eq : forall a,
  tr_radii a = radii (radius a + bl_thickness a) (tr_factor a * radius a) (tr_growth a) (tr_levels a).
Proof. reflexivity. Qed.

Lemma radii_length : forall bl tr g n, length (radii bl tr g n) = S n.
Proof. intros. unfold radii. rewrite map_length. apply linspace_length. Qed.

Lemma radii_nth : forall bl tr g n i, (i <= n)%nat ->
  nth_error (radii bl tr g n) i = Some (bl + (tr - bl) * power (INR i / INR n) g).
Proof.
  intros. unfold radii. rewrite nth_error_map, linspace_nth by assumption. cbn [option_map].
  do 4 f_equal. ring.
Qed.

Lemma radii_ladder : forall bl tr g n, bl < tr -> 0 < g -> (1 <= n)%nat -> ladder bl tr (radii bl tr g n).
Proof.
  intros bl tr g n L G N. assert (N0 : 0 < INR n) by (apply lt_0_INR; lia).
  split; [|split].
  - rewrite radii_nth by lia. f_equal. cbn [INR]. replace (0 / INR n) with 0 by (field; lra).
    rewrite power_0 by exact G. ring.
  - rewrite radii_length. replace (S n - 1)%nat with n by lia. rewrite radii_nth by lia.
    f_equal. replace (INR n / INR n) with 1 by (field; lra). rewrite power_1. ring.
  - intros i j x y IJ Hi Hj.
    assert (Jn : (j <= n)%nat).
    { assert (j < length (radii bl tr g n))%nat by (apply nth_error_Some; rewrite Hj; discriminate).
      rewrite radii_length in H. lia. }
    rewrite radii_nth in Hi, Hj by lia. injection Hi as <-. injection Hj as <-.
    apply Rplus_lt_compat_l. apply Rmult_lt_compat_l; [lra|].
    apply power_lt; [apply frac_bounds; lia|apply frac_lt; lia|exact G].
Qed.

(** The layers thicken outwards if the growth is at least one. *)
Lemma power_mvt : forall x y g, 0 < x -> x < y ->
  exists c, x <= c <= y /\ power y g - power x g = g * Rpower c (g - 1) * (y - x).
Proof.
  intros x y g X L.
  assert (D : forall c, 0 < c -> is_derive (fun z => Rpower z g) c (g * Rpower c (g - 1))).
  { intros c C. unfold Rpower. auto_derive; [exact C|].
    replace ((g - 1) * ln c) with (g * ln c + - ln c) by ring. rewrite exp_plus, exp_Ropp, exp_ln by exact C.
    field. lra. }
  destruct (MVT_gen (fun z => Rpower z g) x y (fun c => g * Rpower c (g - 1))) as (c & C1 & C2).
  - rewrite Rmin_left, Rmax_right by lra. intros z Z. apply D. lra.
  - rewrite Rmin_left, Rmax_right by lra. intros z Z.
    apply continuity_pt_filterlim. apply (ex_derive_continuous (fun z => Rpower z g)).
    eexists. apply D. lra.
  - exists c. rewrite Rmin_left, Rmax_right in C1 by lra. split; [exact C1|].
    rewrite !power_pos by lra. exact C2.
Qed.

Lemma power_convex : forall x d g, 0 <= x -> 0 < d -> 1 <= g ->
  power (x + d) g - power x g <= power (x + 2 * d) g - power (x + d) g.
Proof.
  intros x d g X D G. destruct (Req_dec x 0) as [->|N].
  - rewrite power_0 by lra. rewrite !Rplus_0_l. rewrite !power_pos by lra.
    assert (2 <= Rpower 2 g).
    { rewrite <- (Rpower_1 2) at 1 by lra. apply Rle_Rpower; lra. }
    rewrite <- Rpower_mult_distr by lra.
    assert (0 < Rpower d g) by apply exp_pos. nra.
  - destruct (power_mvt x (x + d) g) as (c1 & C1 & E1); [lra|lra|].
    destruct (power_mvt (x + d) (x + 2 * d) g) as (c2 & C2 & E2); [lra|lra|].
    rewrite E1, E2. replace (x + d - x) with d by ring. replace (x + 2 * d - (x + d)) with d by ring.
    apply Rmult_le_compat_r; [lra|]. apply Rmult_le_compat_l; [lra|].
    unfold Rpower. destruct (Req_dec c1 c2) as [->|N2]; [apply Rle_refl|].
    destruct (Req_dec g 1) as [->|N3].
    + right. f_equal. ring.
    + left. apply exp_increasing. apply Rmult_lt_compat_l; [lra|]. apply ln_increasing; lra.
Qed.

Lemma power_convex_strict : forall d g, 0 < d -> 1 < g ->
  power d g - power 0 g < power (2 * d) g - power d g.
Proof.
  intros d g D G. rewrite power_0 by lra. rewrite !power_pos by lra.
  rewrite <- Rpower_mult_distr by lra.
  assert (2 < Rpower 2 g).
  { rewrite <- (Rpower_1 2) at 1 by lra. apply Rpower_lt; lra. }
  assert (0 < Rpower d g) by apply exp_pos. nra.
Qed.

Lemma radii_thickness : forall bl tr g n i, (i < n)%nat ->
  thickness (radii bl tr g n) i = (tr - bl) * (power (INR (i + 1) / INR n) g - power (INR i / INR n) g).
Proof.
  intros bl tr g n i H. unfold thickness.
  rewrite (nth_error_nth _ _ 0 (radii_nth bl tr g n (i + 1) ltac:(lia))).
  rewrite (nth_error_nth _ _ 0 (radii_nth bl tr g n i ltac:(lia))). ring.
Qed.

Lemma frac_step : forall i n, (1 <= n)%nat -> INR (i + 1) / INR n = INR i / INR n + / INR n.
Proof. intros i n N. rewrite plus_INR. cbn [INR]. field. apply not_0_INR. lia. Qed.

Lemma radii_grow : forall bl tr g n i, bl < tr -> 1 <= g -> (i + 1 < n)%nat ->
  thickness (radii bl tr g n) i <= thickness (radii bl tr g n) (i + 1).
Proof.
  intros bl tr g n i L G H. rewrite !radii_thickness by lia. apply Rmult_le_compat_l; [lra|].
  assert (N : 0 < / INR n) by (apply Rinv_0_lt_compat; apply lt_0_INR; lia).
  rewrite (frac_step (i + 1) n) by lia. rewrite (frac_step i n) by lia.
  replace (INR i / INR n + / INR n + / INR n) with (INR i / INR n + 2 * / INR n) by ring.
  apply power_convex; [apply frac_bounds; lia|exact N|exact G].
Qed.

Lemma radii_grow_strict : forall bl tr g n, bl < tr -> 1 < g -> (2 <= n)%nat ->
  thickness (radii bl tr g n) 0 < thickness (radii bl tr g n) (n - 1).
Proof.
  intros bl tr g n L G H.
  assert (M : forall k, (1 <= k < n)%nat -> thickness (radii bl tr g n) 0 < thickness (radii bl tr g n) k).
  { induction k as [|k IH]; intro K; [lia|]. destruct k as [|k].
    - rewrite !radii_thickness by lia. apply Rmult_lt_compat_l; [lra|].
      assert (N : 0 < / INR n) by (apply Rinv_0_lt_compat; apply lt_0_INR; lia).
      rewrite (frac_step 1 n) by lia. change (INR 1) with 1. change (0 + 1)%nat with 1%nat. change (INR 1) with 1.
      change (INR 0) with 0. replace (0 / INR n) with 0 by (unfold Rdiv; ring).
      replace (1 / INR n + / INR n) with (2 * / INR n) by (unfold Rdiv; ring).
      replace (1 / INR n) with (/ INR n) by (unfold Rdiv; ring).
      apply power_convex_strict; assumption.
    - eapply Rlt_le_trans; [apply IH; lia|]. replace (S (S k)) with (S k + 1)%nat by lia.
      apply radii_grow; [exact L|lra|lia]. }
  apply M. lia.
Qed.

Lemma diff_nth : forall l i, (i + 1 < length l)%nat -> nth_error (diff l) i = Some (thickness l i).
Proof.
  induction l as [|x l IH]; intros i H; [cbn in H; lia|].
  destruct l as [|y l]; [cbn in H; lia|].
  destruct i as [|i]; [reflexivity|].
  change (diff (x :: y :: l)) with ((y - x) :: diff (y :: l)). cbn [nth_error].
  rewrite IH by (cbn [length] in *; lia). reflexivity.
Qed.

Lemma diff_length : forall l, length (diff l) = (length l - 1)%nat.
Proof.
  induction l as [|x l IH]; [reflexivity|]. destruct l as [|y l]; [reflexivity|].
  change (diff (x :: y :: l)) with ((y - x) :: diff (y :: l)). cbn [length] in *. rewrite IH. lia.
Qed.

(** Circles of the transition regime. *)
Lemma tr_faces_in : forall a f, In f (tr_faces a) ->
  exists r h, In r (tl (tr_radii a)) /\ f = mk_face (covers (circle r)) None (Some h).
Proof.
  intros a f I. unfold tr_faces in I. apply in_map_iff in I. destruct I as ([r h] & <- & I).
  apply in_combine_l in I. apply in_rev in I. exists r, h. split; [exact I|reflexivity].
Qed.

Lemma tr_faces_all : forall a r, In r (tl (tr_radii a)) -> exists f, In f (tr_faces a) /\ covers f = covers (circle r).
Proof.
  intros a r I. apply in_rev in I. apply In_nth_error in I. destruct I as [k K].
  assert (Lk : (k < length (rev (tl (tr_radii a))))%nat) by (apply nth_error_Some; rewrite K; discriminate).
  assert (Ll : length (rev (tl (tr_radii a))) = length (diff (tr_radii a))).
  { rewrite rev_length, diff_length. destruct (tr_radii a); [reflexivity|cbn; lia]. }
  destruct (nth_error (diff (tr_radii a)) k) as [h|] eqn:Hh.
  2: { apply nth_error_None in Hh. lia. }
  exists (mk_face (covers (circle r)) None (Some h)). split; [|reflexivity].
  unfold tr_faces. apply in_map_iff. exists (r, h). split; [reflexivity|].
  apply nth_error_In with (n := k).
  clear Lk. revert k K Hh Ll. generalize (rev (tl (tr_radii a))) as x. generalize (diff (tr_radii a)) as y.
  induction y as [|y0 y IH]; intros x k K Hh Ll; [destruct k; discriminate Hh|].
  destruct x as [|x0 x]; [discriminate Ll|]. destruct k as [|k].
  - injection K as ->. injection Hh as ->. reflexivity.
  - cbn [combine nth_error] in *. apply IH; [exact K|exact Hh|now injection Ll].
Qed.

(** The arguments make sense: radii in order, at least one transition layer,
    positive growth. *)
Definition sensible (a : sizes) : Prop :=
  0 < radius a /\ 0 <= bl_thickness a /\ (0 < bl_thickness a -> (1 <= bl_levels a)%nat) /\
  radius a + bl_thickness a < tr_factor a * radius a /\
  tr_factor a <= ff_factor a /\ (sponge_layer a = true -> ff_factor a <= sp_factor a) /\
  (1 <= tr_levels a)%nat /\ 0 < tr_growth a.

(** Radius of the whole domain. *)
Definition outer_radius (a : sizes) : R :=
  (if sponge_layer a then sp_factor a else ff_factor a) * radius a.

Lemma transition_covers : forall a p, sensible a ->
  in_shape (glue (map (fun f => [f]) (tr_faces a))) p <-> square_distance p <= (tr_factor a * radius a) ^ 2.
Proof.
  intros a p (R0 & B0 & _ & L & _ & _ & N & G).
  destruct (radii_ladder (radius a + bl_thickness a) (tr_factor a * radius a) (tr_growth a) (tr_levels a) L G N)
    as (Ra & Rb & Rc).
  rewrite <- tr_radii_eq in *.
  assert (Len : length (tr_radii a) = S (tr_levels a)) by (rewrite tr_radii_eq; apply radii_length).
  rewrite in_glue. split.
  - intros (s & I & C). apply in_map_iff in I. destruct I as (f & <- & I). rewrite in_one in C.
    destruct (tr_faces_in a f I) as (r & h & J & ->). cbn [covers] in C.
    change (square_distance p <= r ^ 2) in C. eapply Rle_trans; [exact C|].
    assert (J' : In r (tr_radii a)) by (destruct (tr_radii a); [destruct J|right; exact J]).
    apply In_nth_error in J'. destruct J' as [k K].
    assert (Lk : (k < S (tr_levels a))%nat) by (rewrite <- Len; apply nth_error_Some; rewrite K; discriminate).
    rewrite Len in Rb. replace (S (tr_levels a) - 1)%nat with (tr_levels a) in Rb by lia.
    assert (r <= tr_factor a * radius a).
    { destruct (Nat.eq_dec k (tr_levels a)) as [E|E].
      - subst k. rewrite K in Rb. injection Rb as ->. lra.
      - left. apply (Rc k (tr_levels a)); [lia|exact K|exact Rb]. }
    assert (0 <= r).
    { destruct k as [|k]; [rewrite K in Ra; injection Ra as ->; lra|].
      assert (radius a + bl_thickness a < r) by (apply (Rc 0%nat (S k)); [lia|exact Ra|exact K]). lra. }
    apply pow_incr. lra.
  - intro C. destruct (tr_faces_all a (tr_factor a * radius a)) as (f & I & E).
    { rewrite Len in Rb. replace (S (tr_levels a) - 1)%nat with (tr_levels a) in Rb by lia.
      destruct (tr_radii a) as [|x l]; [discriminate Len|]. cbn [tl].
      destruct (tr_levels a) as [|m]; [lia|]. apply nth_error_In with (n := m). exact Rb. }
    exists [f]. split; [apply in_map_iff; exists f; split; [reflexivity|exact I]|].
    rewrite in_one, E. exact C.
Qed.

Lemma layer_ok : forall a mat, sensible a -> exists l, boundary_layer a mat = Ok l /\
  (forall p, in_shape l p -> between (radius a) (radius a + bl_thickness a) p) /\
  (forall f, In f l -> face_name f = Some mat).
Proof.
  intros a mat (R0 & B0 & B1 & _). unfold boundary_layer.
  destruct (Rlt_dec 0 (bl_thickness a)) as [P|P].
  2: { exists []. split; [reflexivity|]. split; [intros p (f & [] & _)|intros f []]. }
  specialize (B1 P). destruct (bl_levels a) as [|n] eqn:En; [lia|].
  eexists. split; [reflexivity|]. split.
  - intros p H. rewrite in_named, in_minus, in_circle, in_glue in H. destruct H as ((s & I & C) & Nc).
    apply in_map_iff in I. destruct I as (r & <- & I). rewrite in_sized, in_circle in C.
    split; [lra|]. eapply Rle_trans; [exact C|].
    apply in_rev in I.
    assert (J : In r (linspace (radius a) (radius a + bl_thickness a) (S n))).
    { destruct (linspace _ _ _); [destruct I|right; exact I]. }
    apply In_nth_error in J. destruct J as [k K].
    assert (Lk : (k <= S n)%nat).
    { assert (k < length (linspace (radius a) (radius a + bl_thickness a) (S n)))%nat
        by (apply nth_error_Some; rewrite K; discriminate).
      rewrite linspace_length in H. lia. }
    rewrite linspace_nth in K by exact Lk.
    apply (f_equal (fun o => match o with Some x => x | None => 0 end)) in K. cbv beta iota in K. rewrite <- K. clear K.
    assert (F := frac_bounds k (S n) Lk ltac:(lia)).
    replace (radius a + bl_thickness a - radius a) with (bl_thickness a) by ring.
    assert (0 <= bl_thickness a * (INR k / INR (S n)) <= bl_thickness a).
    { split; [apply Rmult_le_pos; lra|]. rewrite <- (Rmult_1_r (bl_thickness a)) at 2.
      apply Rmult_le_compat_l; lra. }
    apply pow_incr. lra.
  - intros f I. unfold named in I. apply in_map_iff in I. destruct I as (g & <- & _). reflexivity.
Qed.

Lemma last_diff : forall a, (1 <= tr_levels a)%nat ->
  exists l, rev (diff (tr_radii a)) = thickness (tr_radii a) (tr_levels a - 1) :: l.
Proof.
  intros a N.
  assert (Len : length (tr_radii a) = S (tr_levels a)) by (rewrite tr_radii_eq; apply radii_length).
  assert (D : nth_error (diff (tr_radii a)) (tr_levels a - 1) = Some (thickness (tr_radii a) (tr_levels a - 1)))
    by (apply diff_nth; lia).
  assert (L : length (diff (tr_radii a)) = tr_levels a) by (rewrite diff_length; lia).
  destruct (rev (diff (tr_radii a))) as [|x l] eqn:E.
  - apply (f_equal (@length R)) in E. rewrite rev_length, L in E. cbn in E. lia.
  - exists l. apply (f_equal (@rev R)) in E. rewrite rev_involutive in E. cbn [rev] in E.
    rewrite E in D, L. rewrite app_length in L. cbn [length] in L.
    rewrite nth_error_app2 in D by lia. replace (tr_levels a - 1 - length (rev l))%nat with 0%nat in D by lia.
    cbn in D. injection D as ->. reflexivity.
Qed.

(** Wrong input is refused, and nothing else is called wrong input. *)
Theorem c75_refused : forall a mat,
  cylinder_geometry a mat = Err ValueError <->
  bl_thickness a < 0 \/ (sponge_layer a = true /\ sp_factor a < ff_factor a).
Proof.
  intros a mat. unfold cylinder_geometry.
  destruct (Rlt_dec (bl_thickness a) 0) as [B|B]; [tauto|].
  destruct (Rlt_dec (sp_factor a) (ff_factor a)) as [S|S];
    destruct (sponge_layer a); cbn [andb]; try tauto;
    (split; [|intros [H|[H1 H2]]; [lra|discriminate H1 || lra]]);
    (destruct (boundary_layer a (fst mat)) as [l|e] eqn:E; cbn [bind];
     [destruct (rev (diff (tr_radii a))); discriminate|]);
    intro H; unfold boundary_layer in E;
    (destruct (Rlt_dec 0 (bl_thickness a)); [destruct (bl_levels a)|]); try discriminate E;
    injection E as <-; discriminate H.
Qed.
Print Assumptions c75_refused.

Section Pieces.
Variables (a : sizes) (mat : string * string).
Hypothesis A : sensible a.

Let tr := tr_factor a * radius a.
Let ff := ff_factor a * radius a.
Let sp := outer_radius a.

Lemma radii_order : radius a ^ 2 < tr ^ 2 /\ tr ^ 2 <= ff ^ 2 /\ ff ^ 2 <= sp ^ 2 /\
  (radius a + bl_thickness a) ^ 2 <= tr ^ 2.
Proof.
  destruct A as (R0 & B0 & _ & L & T & S & _). unfold tr, ff, sp, outer_radius.
  assert (0 < tr_factor a * radius a) by lra.
  assert (K1 : tr_factor a * radius a <= ff_factor a * radius a) by (apply Rmult_le_compat_r; lra).
  assert (K2 : ff_factor a * radius a <= (if sponge_layer a then sp_factor a else ff_factor a) * radius a).
  { apply Rmult_le_compat_r; [lra|]. destruct (sponge_layer a); [now apply S|lra]. }
  split; [nra|]. split; [apply pow_incr; lra|]. split; [apply pow_incr; lra|apply pow_incr; lra].
Qed.
End Pieces.

(** The domain is exactly the ring between the cylinder and the outer circle. *)
Theorem c75_domain : forall a mat, sensible a ->
  exists geo, cylinder_geometry a mat = Ok geo /\
    forall p, in_shape geo p <-> between (radius a) (outer_radius a) p.
Proof.
  intros a mat A. destruct (radii_order a A) as (O1 & O2 & O3 & O4).
  destruct (layer_ok a (fst mat) A) as (l & El & Cl & _).
  destruct (last_diff a ltac:(apply A)) as (rest & Er).
  assert (T := transition_covers a). assert (A' := A).
  destruct A' as (R0 & B0 & _ & L & Tf & S & _).
  unfold cylinder_geometry.
  destruct (Rlt_dec (bl_thickness a) 0) as [B|_]; [lra|].
  assert (Sp : sponge_layer a && (if Rlt_dec (sp_factor a) (ff_factor a) then true else false) = false).
  { destruct (sponge_layer a) eqn:E; [|reflexivity]. specialize (S eq_refl).
    destruct (Rlt_dec (sp_factor a) (ff_factor a)); [lra|reflexivity]. }
  rewrite Sp, El, Er. cbn [bind].
  eexists. split; [reflexivity|]. intro p.
  set (wk := named (fst mat) (sized (wake_maxh a) _)).
  set (tn := named (fst mat) (minus_ (glue (map (fun f => [f]) (tr_faces a))) [circle (radius a)])) in *.
  assert (Tn : in_shape tn p <-> square_distance p <= (tr_factor a * radius a) ^ 2 /\ ~ square_distance p <= radius a ^ 2).
  { unfold tn. rewrite in_named, in_minus, in_circle, (T p A). reflexivity. }
  set (ot := if sponge_layer a then _ else _).
  assert (Ot : in_shape ot p <-> square_distance p <= outer_radius a ^ 2).
  { unfold ot, outer_radius in *. destruct (sponge_layer a).
    - rewrite in_glue2, in_sized, in_minus, !in_named, in_sized, !in_circle. split; [intros [[H _]|H]; lra|].
      intro H. destruct (Rle_lt_dec (square_distance p) ((ff_factor a * radius a) ^ 2)); [right; assumption|left; lra].
    - rewrite in_circle. reflexivity. }
  assert (Geo : in_shape (glue [minus_ (minus_ (glue [minus_ ot wk; times wk ot]) tn) [circle (radius a)]; tn]) p
                <-> between (radius a) (outer_radius a) p).
  { rewrite in_glue2, !in_minus, in_glue2, in_minus, in_times, in_circle. unfold between.
    rewrite Tn, Ot. split.
    - intros [[[[[H _]|[_ H]] H2] H3]|[H1 H2]]; lra.
    - intros [H1 H2].
      destruct (Rle_lt_dec (square_distance p) ((tr_factor a * radius a) ^ 2)) as [H3|H3]; [right; lra|left].
      split; [|lra]. split; [|lra]. destruct (classic (in_shape wk p)); [right|left]; split; assumption. }
  destruct (Rlt_dec 0 (bl_thickness a)); [|exact Geo].
  rewrite in_glue2, Geo. split; [|intro H; left; exact H].
  intros [H|H]; [exact H|]. apply Cl in H. unfold between in *. lra.
Qed.
Print Assumptions c75_domain.

Lemma names_minus : forall s t f, In f (minus_ s t) -> exists g, In g s /\ face_name f = face_name g /\
  (forall p, covers f p -> covers g p /\ ~ in_shape t p).
Proof.
  intros s t f I. apply in_map_iff in I. destruct I as (g & <- & I). exists g. split; [exact I|].
  split; [reflexivity|]. intros p H. exact H.
Qed.

Lemma names_times : forall s t f, In f (times s t) -> exists g, In g s /\ face_name f = face_name g /\
  (forall p, covers f p -> covers g p /\ in_shape t p).
Proof.
  intros s t f I. apply in_map_iff in I. destruct I as (g & <- & I). exists g. split; [exact I|].
  split; [reflexivity|]. intros p H. exact H.
Qed.

Lemma names_named : forall n s f, In f (named n s) -> exists g, In g s /\ face_name f = Some n /\ covers f = covers g.
Proof.
  intros n s f I. apply in_map_iff in I. destruct I as (g & <- & I). exists g. now split.
Qed.

Lemma names_sized : forall h s f, In f (sized h s) -> exists g, In g s /\ face_name f = face_name g /\ covers f = covers g.
Proof.
  intros n s f I. apply in_map_iff in I. destruct I as (g & <- & I). exists g. now split.
Qed.

Lemma names_glue2 : forall s t f, In f (glue [s; t]) -> In f s \/ In f t.
Proof.
  intros s t f I. unfold glue in I. cbn [concat] in I. rewrite app_nil_r in I. now apply in_app_iff in I.
Qed.

(** With a sponge every part of the domain bears one name: that of the sponge
    beyond the far field, that of the sound region up to it. *)
Theorem c75_materials : forall a mat, sensible a -> sponge_layer a = true ->
  exists geo, cylinder_geometry a mat = Ok geo /\
    forall f p, In f geo -> covers f p ->
      (square_distance p <= (ff_factor a * radius a) ^ 2 -> face_name f = Some (fst mat)) /\
      ((ff_factor a * radius a) ^ 2 < square_distance p -> face_name f = Some (snd mat)).
Proof.
  intros a mat A Sl. destruct (radii_order a A) as (O1 & O2 & O3 & O4).
  destruct (layer_ok a (fst mat) A) as (l & El & Cl & Nl).
  destruct (last_diff a ltac:(apply A)) as (rest & Er).
  assert (T := transition_covers a). assert (A' := A).
  destruct A' as (R0 & B0 & _ & L & Tf & S & _).
  unfold cylinder_geometry.
  destruct (Rlt_dec (bl_thickness a) 0) as [B|_]; [lra|].
  rewrite Sl. specialize (S Sl). cbn [andb].
  destruct (Rlt_dec (sp_factor a) (ff_factor a)) as [K|_]; [lra|].
  rewrite El, Er. cbn [bind].
  eexists. split; [reflexivity|]. intros f p I C.
  set (ffar := named (fst mat) (sized (ff_maxh a) [circle (ff_factor a * radius a)])) in *.
  assert (Ffar : forall q, in_shape ffar q <-> square_distance q <= (ff_factor a * radius a) ^ 2).
  { intro q. unfold ffar. rewrite in_named, in_sized, in_circle. reflexivity. }
  set (wk := named (fst mat) (sized (wake_maxh a) (times _ ffar))) in *.
  set (tn := named (fst mat) (minus_ (glue (map (fun f => [f]) (tr_faces a))) [circle (radius a)])) in *.
  assert (Tn : forall g, In g tn -> face_name g = Some (fst mat) /\
             forall q, covers g q -> square_distance q <= (tr_factor a * radius a) ^ 2).
  { intros g G. split; [apply names_named in G; destruct G as (_ & _ & E & _); exact E|].
    intros q Q. assert (Q' : in_shape tn q) by (exists g; split; assumption).
    unfold tn in Q'. rewrite in_named, in_minus, (T q A) in Q'. apply Q'. }
  assert (Wk : forall g, In g wk -> face_name g = Some (fst mat) /\
             forall q, covers g q -> square_distance q <= (ff_factor a * radius a) ^ 2).
  { intros g G. split; [apply names_named in G; destruct G as (_ & _ & E & _); exact E|].
    intros q Q. assert (Q' : in_shape wk q) by (exists g; split; assumption).
    unfold wk in Q'. rewrite in_named, in_sized, in_times, Ffar in Q'. apply Q'. }
  assert (Ot : forall g, In g (glue [sized (sp_maxh a) (minus_ (named (snd mat) [circle (sp_factor a * radius a)]) ffar); ffar]) ->
     (face_name g = Some (snd mat) /\ forall q, covers g q -> (ff_factor a * radius a) ^ 2 < square_distance q) \/
     (face_name g = Some (fst mat) /\ forall q, covers g q -> square_distance q <= (ff_factor a * radius a) ^ 2)).
  { intros g G. apply names_glue2 in G. destruct G as [G|G].
    - left. apply names_sized in G. destruct G as (g1 & G & -> & ->). apply names_minus in G.
      destruct G as (g2 & G & -> & Cv). apply names_named in G. destruct G as (_ & _ & -> & _).
      split; [reflexivity|]. intros q Q. apply Cv in Q. rewrite Ffar in Q. lra.
    - right. split; [apply names_named in G; destruct G as (_ & _ & E & _); exact E|].
      intros q Q. apply Ffar. exists g. split; assumption. }
  assert (Main : (face_name f = Some (snd mat) /\ (ff_factor a * radius a) ^ 2 < square_distance p) \/
                 (face_name f = Some (fst mat) /\ square_distance p <= (ff_factor a * radius a) ^ 2)).
  2: { destruct Main as [[Nm D]|[Nm D]]; split; intro; (exact Nm || lra). }
  assert (Geo : In f (glue [minus_ (minus_ (glue [minus_ (glue [sized (sp_maxh a)
      (minus_ (named (snd mat) [circle (sp_factor a * radius a)]) ffar); ffar]) wk;
      times wk (glue [sized (sp_maxh a) (minus_ (named (snd mat) [circle (sp_factor a * radius a)]) ffar); ffar])]) tn)
      [circle (radius a)]; tn]) \/ In f l).
  { destruct (Rlt_dec 0 (bl_thickness a)); [apply names_glue2 in I; exact I|left; exact I]. }
  clear I. destruct Geo as [I|I].
  - apply names_glue2 in I. destruct I as [I|I].
    + apply names_minus in I. destruct I as (g1 & I & -> & C1). apply C1 in C. destruct C as [C _].
      apply names_minus in I. destruct I as (g2 & I & -> & C2). apply C2 in C. destruct C as [C _].
      apply names_glue2 in I. destruct I as [I|I].
      * apply names_minus in I. destruct I as (g3 & I & -> & C3). apply C3 in C. destruct C as [C _].
        apply Ot in I. destruct I as [[E D]|[E D]]; [left|right]; (split; [exact E|now apply D]).
      * apply names_times in I. destruct I as (g3 & I & -> & C3). apply C3 in C. destruct C as [C _].
        right. apply Wk in I. destruct I as [E D]. split; [exact E|now apply D].
    + right. apply Tn in I. destruct I as [E D]. split; [exact E|]. eapply Rle_trans; [apply D; exact C|exact O2].
  - right. split; [now apply Nl|].
    assert (K : in_shape l p) by (exists f; split; assumption). apply Cl in K. unfold between in K. lra.
Qed.
Print Assumptions c75_materials.

(** The circles of the transition regime climb from the boundary layer to the
    transition radius, one for each level; the layers between them thicken
    outwards if the growth is at least one. *)
Theorem c75_layers : forall a, sensible a ->
  ladder (radius a + bl_thickness a) (tr_factor a * radius a) (tr_radii a) /\
  length (tr_radii a) = S (tr_levels a) /\
  (forall i, (i < tr_levels a)%nat -> 0 < thickness (tr_radii a) i) /\
  (1 <= tr_growth a -> forall i, (i + 1 < tr_levels a)%nat ->
     thickness (tr_radii a) i <= thickness (tr_radii a) (i + 1)).
Proof.
  intros a (_ & _ & _ & L & _ & _ & N & G). rewrite tr_radii_eq.
  split; [apply radii_ladder; assumption|]. split; [apply radii_length|]. split.
  - intros i I. rewrite radii_thickness by exact I. apply Rmult_lt_0_compat; [lra|].
    apply Rlt_Rminus. apply power_lt; [apply frac_bounds; lia|apply frac_lt; lia|exact G].
  - intros G1 i I. apply radii_grow; [exact L|exact G1|exact I].
Qed.
Print Assumptions c75_layers.

Lemma nth_error_combine : forall (A B : Type) (x : list A) (y : list B) k u v,
  nth_error x k = Some u -> nth_error y k = Some v -> nth_error (combine x y) k = Some (u, v).
Proof.
  induction x as [|x0 x IH]; intros y k u v X Y; [destruct k; discriminate X|].
  destruct y as [|y0 y]; [destruct k; discriminate Y|]. destruct k as [|k].
  - injection X as ->. injection Y as ->. reflexivity.
  - cbn [combine nth_error] in *. now apply IH.
Qed.

Lemma nth_error_rev_last : forall (A : Type) (l : list A) k, (k < length l)%nat ->
  nth_error (rev l) k = nth_error l (length l - 1 - k).
Proof.
  induction l as [|x l IH]; intros k H; [cbn in H; lia|]. cbn [rev length] in *.
  destruct (Nat.eq_dec k (length l)) as [->|N].
  - rewrite nth_error_app2 by (rewrite rev_length; lia). rewrite rev_length, Nat.sub_diag.
    replace (S (length l) - 1 - length l)%nat with 0%nat by lia. reflexivity.
  - rewrite nth_error_app1 by (rewrite rev_length; lia). rewrite IH by lia.
    replace (S (length l) - 1 - k)%nat with (S (length l - 1 - k)) by lia. reflexivity.
Qed.

(** The sizes are given in the wrong order: the k-th circle counted from the
    outside bounds layer n - 1 - k, but gets the thickness of layer k. *)
Theorem c75_sizes : forall a k, sensible a -> (k < tr_levels a)%nat ->
  exists f, nth_error (tr_faces a) k = Some f /\
    covers f = covers (circle (nth (tr_levels a - k) (tr_radii a) 0)) /\
    face_maxh f = Some (thickness (tr_radii a) k).
Proof.
  intros a k A K.
  assert (Len : length (tr_radii a) = S (tr_levels a)) by (rewrite tr_radii_eq; apply radii_length).
  assert (X : nth_error (rev (tl (tr_radii a))) k = Some (nth (tr_levels a - k) (tr_radii a) 0)).
  { destruct (tr_radii a) as [|x l]; [discriminate Len|]. cbn [tl length] in *.
    rewrite nth_error_rev_last by lia. replace (tr_levels a - k)%nat with (S (length l - 1 - k)) by lia.
    cbn [nth]. apply nth_error_nth'. lia. }
  assert (Y : nth_error (diff (tr_radii a)) k = Some (thickness (tr_radii a) k)) by (apply diff_nth; lia).
  eexists. split; [|split].
  - unfold tr_faces. rewrite nth_error_map, (nth_error_combine _ _ _ _ _ _ _ X Y). reflexivity.
  - reflexivity.
  - reflexivity.
Qed.
Print Assumptions c75_sizes.

(** So a growing transition regime has its smallest element size outside and
    its largest at the cylinder. *)
Theorem c75_sizes_refuted : forall a, sensible a -> 1 < tr_growth a -> (2 <= tr_levels a)%nat ->
  exists outermost innermost h h',
    nth_error (tr_faces a) 0 = Some outermost /\ nth_error (tr_faces a) (tr_levels a - 1) = Some innermost /\
    (forall p, covers outermost p <-> square_distance p <= (tr_factor a * radius a) ^ 2) /\
    face_maxh outermost = Some h /\ face_maxh innermost = Some h' /\
    h < thickness (tr_radii a) (tr_levels a - 1) /\ thickness (tr_radii a) 0 < h'.
Proof.
  intros a A G N.
  destruct (c75_sizes a 0 A ltac:(lia)) as (o & O1 & O2 & O3).
  destruct (c75_sizes a (tr_levels a - 1) A ltac:(lia)) as (i & I1 & I2 & I3).
  exists o, i, (thickness (tr_radii a) 0), (thickness (tr_radii a) (tr_levels a - 1)).
  assert (S0 : thickness (tr_radii a) 0 < thickness (tr_radii a) (tr_levels a - 1)).
  { destruct A as (_ & _ & _ & L & _). rewrite tr_radii_eq. apply radii_grow_strict; assumption. }
  split; [exact O1|]. split; [exact I1|]. split.
  - intro p. rewrite O2. destruct (c75_layers a A) as ((_ & E & _) & Len & _).
    rewrite Len in E. replace (S (tr_levels a) - 1)%nat with (tr_levels a) in E by lia.
    rewrite Nat.sub_0_r. rewrite (nth_error_nth _ _ 0 E). reflexivity.
  - repeat split; assumption.
Qed.
Print Assumptions c75_sizes_refuted.

(** Without levels the function fails before it makes a mesh. *)
Theorem c75_no_levels : forall a mat, 0 <= bl_thickness a -> (sponge_layer a = true -> ff_factor a <= sp_factor a) ->
  (0 < bl_thickness a -> bl_levels a = 0%nat -> cylinder_geometry a mat = Err ZeroDivisionError) /\
  ((0 < bl_thickness a -> bl_levels a <> 0%nat) -> tr_levels a = 0%nat -> cylinder_geometry a mat = Err UnboundLocalError).
Proof.
  intros a mat B S.
  assert (Sp : sponge_layer a && (if Rlt_dec (sp_factor a) (ff_factor a) then true else false) = false).
  { destruct (sponge_layer a) eqn:E; [|reflexivity]. specialize (S eq_refl).
    destruct (Rlt_dec (sp_factor a) (ff_factor a)); [lra|reflexivity]. }
  unfold cylinder_geometry. destruct (Rlt_dec (bl_thickness a) 0); [lra|]. rewrite Sp.
  split.
  - intros P Z. unfold boundary_layer. destruct (Rlt_dec 0 (bl_thickness a)); [|lra]. rewrite Z. reflexivity.
  - intros Z T.
    assert (D : diff (tr_radii a) = []) by (rewrite tr_radii_eq, T; reflexivity).
    rewrite D. unfold boundary_layer. destruct (Rlt_dec 0 (bl_thickness a)) as [P|P]; [|reflexivity].
    specialize (Z P). destruct (bl_levels a); [now contradiction Z|reflexivity].
Qed.
Print Assumptions c75_no_levels.

(** Without a sponge the far field is never put into the geometry: upstream of
    the wake the domain bears no name.  This is the mesh returned when the
    layers are curved. *)
Theorem c75_unnamed_refuted : forall a mat, sensible a -> sponge_layer a = false ->
  exists geo, cylinder_geometry a mat = Ok geo /\
    forall f p, In f geo -> covers f p ->
      2 * tr_factor a * radius a < - fst p -> face_name f = None.
Proof.
  intros a mat A Sl. destruct (radii_order a A) as (O1 & O2 & O3 & O4).
  destruct (layer_ok a (fst mat) A) as (l & El & Cl & Nl).
  destruct (last_diff a ltac:(apply A)) as (rest & Er).
  destruct (c75_layers a A) as (Lad & Len & _).
  assert (T := transition_covers a). assert (A' := A).
  destruct A' as (R0 & B0 & _ & L & Tf & _ & N & _).
  set (h := thickness (tr_radii a) (tr_levels a - 1)) in *.
  assert (H : h <= tr_factor a * radius a /\ 0 <= h).
  { destruct Lad as (L0 & L1 & L2). unfold h, thickness.
    rewrite Len in L1. replace (S (tr_levels a) - 1)%nat with (tr_levels a) in L1 by lia.
    replace (tr_levels a - 1 + 1)%nat with (tr_levels a) by lia. rewrite (nth_error_nth _ _ 0 L1).
    assert (K : nth_error (tr_radii a) (tr_levels a - 1) = Some (nth (tr_levels a - 1) (tr_radii a) 0))
      by (apply nth_error_nth'; lia).
    assert (K1 := L2 (tr_levels a - 1)%nat (tr_levels a) _ _ ltac:(lia) K L1).
    assert (K0 : 0 <= nth (tr_levels a - 1) (tr_radii a) 0); [|lra].
    destruct (Nat.eq_dec (tr_levels a - 1) 0) as [Z|Z].
    - rewrite Z in *. rewrite (nth_error_nth _ _ 0 L0). lra.
    - assert (K2 := L2 0%nat (tr_levels a - 1)%nat _ _ ltac:(lia) L0 K). lra. }
  unfold cylinder_geometry.
  destruct (Rlt_dec (bl_thickness a) 0) as [B|_]; [lra|].
  rewrite Sl. cbn [andb]. rewrite El, Er. cbn [bind].
  eexists. split; [reflexivity|]. intros f p I C Up.
  set (ffar := named (fst mat) (sized (ff_maxh a) [circle (ff_factor a * radius a)])) in *.
  set (tn := named (fst mat) (minus_ (glue (map (fun f => [f]) (tr_faces a))) [circle (radius a)])) in *.
  set (wk := named (fst mat) (sized (wake_maxh a) (times _ ffar))) in *.
  assert (Dist : (2 * tr_factor a * radius a) ^ 2 < square_distance p).
  { assert ((2 * tr_factor a * radius a) ^ 2 < fst p ^ 2) by nra.
    unfold square_distance. assert (0 <= snd p ^ 2) by apply pow2_ge_0. lra. }
  assert (Big : (tr_factor a * radius a) ^ 2 < square_distance p) by nra.
  assert (Tn : ~ in_shape tn p).
  { intro K. unfold tn in K. rewrite in_named, in_minus, (T p A) in K. lra. }
  assert (Wk : ~ in_shape wk p).
  { intro K. unfold wk in K. rewrite in_named, in_sized, in_times, !in_minus, in_one in K.
    destruct K as [[[[[_ K]|[K _]] _] _] _]; [|nra].
    change (square_distance p <= (tr_factor a * radius a + h) ^ 2) in K.
    assert ((tr_factor a * radius a + h) ^ 2 <= (2 * tr_factor a * radius a) ^ 2) by (apply pow_incr; lra). lra. }
  assert (Geo : In f (glue [minus_ (minus_ (glue [minus_ [circle (ff_factor a * radius a)] wk;
      times wk [circle (ff_factor a * radius a)]]) tn) [circle (radius a)]; tn]) \/ In f l).
  { destruct (Rlt_dec 0 (bl_thickness a)); [apply names_glue2 in I; exact I|left; exact I]. }
  clear I. destruct Geo as [I|I].
  - apply names_glue2 in I. destruct I as [I|I].
    + apply names_minus in I. destruct I as (g1 & I & -> & C1). apply C1 in C. destruct C as [C _].
      apply names_minus in I. destruct I as (g2 & I & -> & C2). apply C2 in C. destruct C as [C _].
      apply names_glue2 in I. destruct I as [I|I].
      * apply names_minus in I. destruct I as (g3 & I & -> & C3). destruct I as [<- | []]. reflexivity.
      * apply names_times in I. destruct I as (g3 & I & -> & C3). apply C3 in C. destruct C as [C _].
        contradiction Wk. exists g3. split; assumption.
    + contradiction Tn. exists f. split; assumption.
  - assert (K : in_shape l p) by (exists f; split; assumption). apply Cl in K. unfold between in K. nra.
Qed.
Print Assumptions c75_unnamed_refuted.

(** The order of transition and far field is not checked: the domain can then
    stick out of the outer circle. *)
Theorem c75_order_refuted : exists a mat geo p,
  0 < radius a /\ 0 <= bl_thickness a /\ ff_factor a <= sp_factor a /\ sponge_layer a = true /\
  cylinder_geometry a mat = Ok geo /\ in_shape geo p /\ (outer_radius a) ^ 2 < square_distance p.
Proof.
  set (a := mk_sizes 1 true 1 0 1 1 8 2 3 1 1 1).
  assert (E : tr_radii a = [1; 8]).
  { rewrite tr_radii_eq. unfold radii, linspace. cbn [a radius bl_thickness tr_factor tr_growth tr_levels Nat.add seq map INR].
    replace (0 + (1 - 0) * (0 / 1)) with 0 by field. replace (0 + (1 - 0) * (1 / 1)) with 1 by field.
    rewrite power_0, power_1 by lra. repeat f_equal; ring. }
  exists a, ("sound"%string, "sponge"%string).
  unfold cylinder_geometry, boundary_layer. rewrite E.
  cbn [a bl_thickness sponge_layer sp_factor ff_factor bl_levels].
  destruct (Rlt_dec 0 0) as [Z|Z]; [lra|]. destruct (Rlt_dec 3 2) as [Y|Y]; [lra|].
  cbn [andb bind diff rev app].
  eexists. exists (5, 0). split; [cbn; lra|]. split; [cbn; lra|]. split; [cbn; lra|]. split; [reflexivity|].
  split; [reflexivity|]. split.
  - rewrite in_glue2. right. rewrite in_named, in_minus, in_circle, in_glue. split.
    + eexists. split; [unfold tr_faces; rewrite E; left; reflexivity|]. rewrite in_one. cbn. lra.
    + unfold square_distance. cbn. lra.
  - unfold square_distance, outer_radius. cbn. lra.
Qed.
Print Assumptions c75_order_refuted.

Lemma all_minus : forall s t, map face_name (minus_ s t) = map face_name s.
Proof. intros. unfold minus_. rewrite map_map. reflexivity. Qed.

Lemma all_times : forall s t, map face_name (times s t) = map face_name s.
Proof. intros. unfold times. rewrite map_map. reflexivity. Qed.

Lemma all_sized : forall h s, map face_name (sized h s) = map face_name s.
Proof. intros. unfold sized. rewrite map_map. reflexivity. Qed.

Lemma all_glue2 : forall s t, map face_name (glue [s; t]) = map face_name s ++ map face_name t.
Proof. intros. unfold glue. cbn [concat]. rewrite app_nil_r. apply map_app. Qed.

(** The flat copy of a mesh with a sponge: every triangle keeps the name of the
    face it was made from.  Without a sponge the copy names every triangle. *)
Theorem c75_copied_regions : forall a mat, sensible a ->
  exists geo, cylinder_geometry a mat = Ok geo /\
    (sponge_layer a = true -> forall k f, nth_error geo k = Some f ->
       face_name f = Some (copied_region (sponge_layer a) mat (k + 1))) /\
    (sponge_layer a = false -> forall k, copied_region (sponge_layer a) mat (k + 1) = fst mat).
Proof.
  intros a mat A.
  destruct (layer_ok a (fst mat) A) as (l & El & _ & Nl).
  destruct (last_diff a ltac:(apply A)) as (rest & Er).
  destruct A as (R0 & B0 & _ & L & Tf & Sf & _).
  unfold cylinder_geometry.
  destruct (Rlt_dec (bl_thickness a) 0) as [B|_]; [lra|].
  destruct (sponge_layer a) eqn:Sl; cbn [andb].
  2: { rewrite El, Er. cbn [bind]. eexists. split; [reflexivity|]. split; [discriminate|]. reflexivity. }
  specialize (Sf eq_refl). destruct (Rlt_dec (sp_factor a) (ff_factor a)) as [K|_]; [lra|].
  rewrite El, Er. cbn [bind]. eexists. split; [reflexivity|]. split; [|discriminate].
  intros _ k f K.
  set (tn := named (fst mat) (minus_ (glue (map (fun f => [f]) (tr_faces a))) [circle (radius a)])) in *.
  assert (Tn : forall x, In x (map face_name tn) -> x = Some (fst mat)).
  { intros x X. apply in_map_iff in X. destruct X as (g & <- & G). apply names_named in G.
    destruct G as (_ & _ & E & _). exact E. }
  assert (Tl : forall x, In x (map face_name l) -> x = Some (fst mat)).
  { intros x X. apply in_map_iff in X. destruct X as (g & <- & G). now apply Nl. }
  assert (E := map_nth_error face_name _ _ K). clear K.
  match type of E with nth_error ?names _ = _ =>
    assert (N : exists rest', names = Some (snd mat) :: rest' /\ forall x, In x rest' -> x = Some (fst mat))
  end.
  2: { destruct N as (rest' & N & All). rewrite N in E. destruct k as [|k].
       - cbn [nth_error] in E. injection E as <-. reflexivity.
       - cbn [nth_error] in E. apply nth_error_In in E. apply All in E. rewrite E.
         unfold copied_region. replace (S k + 1 =? 1)%nat with false by (symmetry; apply Nat.eqb_neq; lia).
         reflexivity. }
  destruct (Rlt_dec 0 (bl_thickness a));
    rewrite ?all_glue2, ?all_minus, ?all_glue2, ?all_minus, ?all_times, ?all_glue2, ?all_sized, ?all_minus;
    eexists; (split; [unfold named at 1 2 3, sized at 1 2 3; cbn [map app]; reflexivity|]);
    intros x X; repeat (destruct X as [<- | X]; [reflexivity|]);
    rewrite ?map_map, ?in_app_iff in X; cbn [face_name] in X.
  all: repeat match type of X with _ \/ _ => destruct X as [X|X] end.
  all: try (now apply Tn); try (now apply Tl).
Qed.
Print Assumptions c75_copied_regions.

(** The default arguments with a sponge and a boundary layer are sensible. *)
Example c75_default : sensible (mk_sizes (1/2) true 5 (1/10) 5 (7/5) 6 50 60 2 4 4) /\
  sensible (mk_sizes (1/2) false 5 0 5 (7/5) 6 50 60 2 4 4).
Proof.
  split; unfold sensible; cbn [radius bl_thickness bl_levels tr_factor ff_factor sp_factor sponge_layer tr_levels tr_growth];
    repeat split; intros; try lra; try lia; try discriminate.
Qed.

Example c75_example : exists geo,
  cylinder_geometry (mk_sizes (1/2) true 5 (1/10) 5 (7/5) 6 50 60 2 4 4) ("sound"%string, "sponge"%string) = Ok geo /\
  in_shape geo (29, 0) /\ in_shape geo (0, 1) /\ ~ in_shape geo (1/4, 1/4) /\
  (forall f, In f geo -> covers f (29, 0) -> face_name f = Some "sponge"%string) /\
  (forall f, In f geo -> covers f (0, 1) -> face_name f = Some "sound"%string).
Proof.
  destruct c75_default as [D _].
  destruct (c75_domain _ ("sound"%string, "sponge"%string) D) as (geo & E & C).
  destruct (c75_materials _ ("sound"%string, "sponge"%string) D eq_refl) as (geo' & E' & M).
  rewrite E in E'. apply (f_equal (fun r => match r with Ok g => g | Err _ => geo end)) in E'. cbv beta iota in E'. subst geo'.
  exists geo. split; [exact E|].
  unfold between, square_distance, outer_radius in *. cbn [radius sponge_layer sp_factor ff_factor fst snd] in *.
  split; [apply C; cbn [fst snd]; lra|]. split; [apply C; cbn [fst snd]; lra|].
  split; [rewrite C; cbn [fst snd]; lra|].
  split; intros f I K; destruct (M f _ I K) as [M1 M2]; cbn [fst snd] in *; [apply M2|apply M1]; lra.
Qed.
