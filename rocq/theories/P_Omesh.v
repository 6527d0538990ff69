(** Properties C36 and C56 (structured ring mesh). *)
From Coq Require Import Reals List Bool Arith Lia Lra Permutation.
From Verif Require Import Base M_Omesh S_Omesh L_Omesh.
Import ListNotations.

(** The parameters the function accepts. *)
Definition admissible_ring (n m : nat) : Prop := 0 < n /\ n mod 4 = 0 /\ 0 < m /\ m mod 2 = 0 /\ m <= n / 2.

Lemma admissible_3 : forall n m, admissible_ring n m -> 3 <= n.
Proof. intros n m (A & B & _). assert (C := Nat.div_mod n 4 ltac:(lia)). lia. Qed.

Lemma row_length : forall n (js : list nat), length (flat_map (fun j => map (fun i => (i, j)) (seq 0 n)) js) = length js * n.
Proof. intros n js. induction js as [|j js IH]; [reflexivity|]. cbn. rewrite app_length, map_length, seq_length, IH. reflexivity. Qed.

Lemma points_length : forall n m, length (ring_points n m) = n * (m + 1).
Proof. intros. unfold ring_points. rewrite row_length, seq_length. lia. Qed.

Lemma points_at : forall n m i j, i < n -> j <= m -> nth_error (ring_points n m) (i + j * n) = Some (i, j).
Proof.
  intros n m i j I J. unfold ring_points.
  replace (seq 0 (m + 1)) with (seq 0 j ++ seq (0 + j) (m + 1 - j)) by (rewrite <- seq_app; f_equal; lia).
  replace (m + 1 - j) with (S (m - j)) by lia. cbn [Nat.add seq]. rewrite flat_map_app, nth_error_app2; rewrite row_length, seq_length; [|nia].
  cbn [flat_map]. replace (i + j * n - j * n) with i by lia. rewrite nth_error_app1 by (rewrite map_length, seq_length; exact I).
  rewrite nth_error_map. rewrite (nth_error_nth' _ 0) by (rewrite seq_length; exact I). rewrite seq_nth by exact I. reflexivity.
Qed.

(** A triangle of the ring, up to the choice of its first vertex. *)
Lemma triangle_form : forall n m a b c, 3 <= n -> In (a, b, c) (ring_triangles n m) -> exists i j, i < n /\ j < m /\
  ((a, b, c) = (i + j * n, i + (j + 1) * n, next n i + j * n) \/
   (a, b, c) = (i + (j + 1) * n, next n i + (j + 1) * n, next n i + j * n) \/
   (b, c, a) = (i + (j + 1) * n, next n i + (j + 1) * n, next n i + j * n)).
Proof.
  intros n m a b c N H. rewrite triangles_cells in H by exact N. apply in_flat_map in H. destruct H as (j & J & H).
  apply in_flat_map in H. destruct H as (i & I & H). apply in_seq in I, J. exists i, j. split; [lia|]. split; [lia|].
  unfold full_cell in H. unfold next. destruct (Nat.eqb_spec i (n - 1)) as [->|D]; destruct H as [H|[H|[]]]; injection H as <- <- <-.
  - left. reflexivity.
  - right. right. reflexivity.
  - left. f_equal.
  - right. left. replace (i + (j + 1) * n + 1) with (i + 1 + (j + 1) * n) by lia. reflexivity.
Qed.

Lemma ring_in_range : forall n m, admissible_ring n m ->
  in_range (length (ring_points n m)) (mk_ring (ring_points n m) (ring_triangles n m) (inner_segments n ++ outer_segments n m)) = true.
Proof.
  intros n m A. assert (N := admissible_3 _ _ A). destruct A as (_ & H4 & Hm0 & H2 & Hm). rewrite points_length. unfold in_range. cbn [triangles segments].
  apply andb_true_iff. split; apply forallb_forall.
  - intros [[a b] c] I. destruct (triangle_form _ _ _ _ _ N I) as (i & j & Hi & Hj & E). assert (X := next_lt n N i Hi).
    rewrite !andb_true_iff, !Nat.ltb_lt. destruct E as [E|[E|E]]; injection E as -> -> ->; (split; [split|]); nia.
  - intros [[a b] l] I. rewrite andb_true_iff, !Nat.ltb_lt. apply in_app_iff in I. destruct I as [I|I].
    + apply (in_inner n N) in I. destruct I as (i & Hi & E). injection E as -> -> ->. assert (X := next_lt n N i Hi). nia.
    + rewrite (outer_as_map n m N H4 H2 Hm Hm0) in I. apply in_map_iff in I. destruct I as (i & E & Hi). apply in_seq in Hi.
      assert (Hi' : i < n) by lia. assert (X := next_lt n N i Hi').
      destruct (outer_ends n m N H4 H2 Hm Hm0 i Hi') as [F|F]; rewrite E in F; cbn [fst] in F; injection F as -> ->; nia.
Qed.

(** The result, for all numbers of elements. *)
Theorem c36_result : forall n m,
  (admissible_ring n m -> exists r, omesh n m = Ok r) /\
  (n mod 4 <> 0 \/ m mod 2 <> 0 \/ n / 2 < m -> omesh n m = Err ValueError) /\
  (n mod 4 = 0 -> 0 < n -> m = 0 -> omesh n m = Err ZeroDivisionError) /\
  (n = 0 -> m = 0 -> omesh n m = Err IndexError).
Proof.
  intros n m. split; [|split; [|split]].
  - intros A. exists (mk_ring (ring_points n m) (ring_triangles n m) (inner_segments n ++ outer_segments n m)).
    assert (R := ring_in_range n m A). destruct A as (N & H4 & Hm0 & H2 & Hm). unfold omesh. rewrite H4, H2. change (0 <? 0) with false. cbn iota.
    destruct (Nat.ltb_spec (n / 2) m); [lia|]. destruct (Nat.eqb_spec m 0); [lia|]. cbn [andb]. cbn zeta. cbn [points]. rewrite R. reflexivity.
  - intros H. unfold omesh. destruct (Nat.ltb_spec 0 (n mod 4)); [reflexivity|]. destruct (Nat.ltb_spec 0 (m mod 2)); [reflexivity|].
    destruct (Nat.ltb_spec (n / 2) m); [reflexivity | lia].
  - intros H4 N ->. unfold omesh. rewrite H4. change (0 <? 0) with false. change (0 <? 0 mod 2) with false. cbn iota.
    destruct (Nat.ltb_spec 0 n); [|lia]. destruct (Nat.ltb_spec (n / 2) 0); [lia | reflexivity].
  - intros -> ->. reflexivity.
Qed.
Print Assumptions c36_result.

Lemma omesh_ok : forall n m r, omesh n m = Ok r -> admissible_ring n m /\
  r = mk_ring (ring_points n m) (ring_triangles n m) (inner_segments n ++ outer_segments n m).
Proof.
  intros n m r H. unfold omesh in H.
  destruct (Nat.ltb_spec 0 (n mod 4)); [discriminate|]. destruct (Nat.ltb_spec 0 (m mod 2)); [discriminate|].
  destruct (Nat.ltb_spec (n / 2) m); [discriminate|].
  destruct (Nat.eqb_spec m 0) as [->|M].
  - destruct (Nat.ltb_spec 0 n); [discriminate|]. assert (n = 0) by lia. subst. vm_compute in H. discriminate.
  - cbn [andb] in H. cbn zeta in H. destruct (in_range _ _); [|discriminate]. injection H as <-. split; [|reflexivity].
    assert (n <> 0) by (intros ->; cbn in *; lia). unfold admissible_ring. lia.
Qed.

(** Numbers of points, triangles and boundary elements. *)
Theorem c36_counts : forall n m r, omesh n m = Ok r ->
  length (points r) = n * (m + 1) /\ NoDup (points r) /\ length (triangles r) = 2 * n * m /\
  labelled 1 (segments r) = n /\ labelled 2 (segments r) = n / 2 /\ labelled 3 (segments r) = n / 2 /\ length (segments r) = 2 * n.
Proof.
  intros n m r H. destruct (omesh_ok _ _ _ H) as (A & ->). assert (N := admissible_3 _ _ A). destruct A as (_ & H4 & Hm0 & H2 & Hm).
  cbn [points triangles segments]. split; [apply points_length|]. split.
  { unfold ring_points. apply NoDup_flat_map; [apply seq_NoDup | |].
    - intros j _. apply NoDup_map_inj; [|apply seq_NoDup]. intros x y _ _ E. injection E as ->. reflexivity.
    - intros x y b _ _ Bx By. apply in_map_iff in Bx, By. destruct Bx as (i & <- & _), By as (i' & E & _). injection E as _ ->. reflexivity. }
  split.
  { unfold ring_triangles. assert (L : forall js, length (flat_map (fun j => flat_map (fun i => cell n i j) (seq 0 (n - 1)) ++ closing_cell n j) js) = 2 * n * length js).
    { induction js as [|j js IH]; [cbn; lia|]. cbn [flat_map]. rewrite !app_length, IH.
      assert (C : forall is, length (flat_map (fun i => cell n i j) is) = 2 * length is) by (induction is as [|i is IHi]; [reflexivity|]; cbn [flat_map]; rewrite app_length, IHi; cbn; lia).
      rewrite C, seq_length. cbn [closing_cell length]. nia. }
    rewrite L, seq_length. reflexivity. }
  destruct (labels n m N H4 H2 Hm Hm0) as (L1 & L2 & L3). unfold boundary in *. rewrite L1, L2, L3. split; [reflexivity|]. split; [reflexivity|]. split; [reflexivity|].
  rewrite (inner_as_map n N), (outer_as_map n m N H4 H2 Hm Hm0), app_length, !map_length, seq_length. lia.
Qed.
Print Assumptions c36_counts.

(** Every triangle has three different vertices, all of them points of the mesh; every point is used. *)
Theorem c36_triangles : forall n m r, omesh n m = Ok r ->
  (forall a b c, In (a, b, c) (triangles r) ->
    a < length (points r) /\ b < length (points r) /\ c < length (points r) /\ a <> b /\ b <> c /\ c <> a) /\
  (forall k, k < length (points r) -> exists a b c, In (a, b, c) (triangles r) /\ (k = a \/ k = b \/ k = c)).
Proof.
  intros n m r H. destruct (omesh_ok _ _ _ H) as (A & ->). assert (N := admissible_3 _ _ A). destruct A as (_ & H4 & Hm0 & H2 & Hm).
  cbn [points triangles]. rewrite points_length. split.
  - intros a b c I. destruct (triangle_form _ _ _ _ _ N I) as (i & j & Hi & Hj & E). assert (X := next_lt n N i Hi).
    assert (Y : next n i <> i) by (unfold next; destruct (Nat.eqb_spec i (n - 1)); lia).
    destruct E as [E|[E|E]]; injection E as -> -> ->; repeat split; nia.
  - intros k K. set (j := k / n). set (i := k mod n). assert (Ek : k = i + j * n) by (unfold i, j; assert (D := Nat.div_mod k n ltac:(lia)); lia).
    assert (Hi : i < n) by (apply Nat.mod_upper_bound; lia). assert (Hj : j <= m) by nia.
    assert (C : forall i' j', i' < n -> j' < m -> In (i' + j' * n, i' + (j' + 1) * n, next n i' + j' * n) (ring_triangles n m)).
    { intros i' j' Hi' Hj'. rewrite triangles_cells by exact N. apply in_flat_map. exists j'. split; [apply in_seq; lia|].
      apply in_flat_map. exists i'. split; [apply in_seq; lia|]. unfold full_cell, next. destruct (Nat.eqb_spec i' (n - 1)) as [->|D]; left; reflexivity. }
    destruct (Nat.eq_dec j m) as [E|E].
    + exists (i + (m - 1) * n), (i + (m - 1 + 1) * n), (next n i + (m - 1) * n). split; [apply C; lia|]. right. left. rewrite Ek, E. f_equal. f_equal. lia.
    + exists (i + j * n), (i + (j + 1) * n), (next n i + j * n). split; [apply C; lia|]. left. exact Ek.
Qed.
Print Assumptions c36_triangles.

(** Conformity: no directed edge occurs twice, so two triangles sharing an edge traverse it in opposite directions and
    have the same orientation; an edge either has a neighbour on its other side or carries exactly one boundary
    element, never both; every boundary element lies on such an edge. *)
Theorem c36_conforming : forall n m r, omesh n m = Ok r ->
  let edges := directed_edges (triangles r) in
  NoDup edges /\
  (forall u v, In (u, v) edges ->
    (~ In (v, u) edges <-> exists s, In s (segments r) /\ joins s u v)) /\
  (forall u v s s', In s (segments r) -> In s' (segments r) -> joins s u v -> joins s' u v -> s = s') /\ NoDup (segments r) /\
  (forall s u v, In s (segments r) -> joins s u v -> In (u, v) edges \/ In (v, u) edges).
Proof.
  intros n m r H. destruct (omesh_ok _ _ _ H) as (A & ->). assert (N := admissible_3 _ _ A). destruct A as (_ & H4 & Hm0 & H2 & Hm).
  cbn zeta. cbn [triangles segments]. split; [apply edges_NoDup, N|].
  assert (U := segments_unique n m N H4 H2 Hm Hm0). unfold boundary in U.
  assert (Fj : forall (s : (nat * nat) * nat) u v, (let '((a, b), _) := s in (a =? u) && (b =? v) || (a =? v) && (b =? u)) = true <-> joins s u v).
  { intros [[a b] l] u v. unfold joins. cbn [fst]. rewrite orb_true_iff, !andb_true_iff, !Nat.eqb_eq.
    split; [intros [[-> ->]|[-> ->]]; auto | intros [E|E]; injection E as -> ->; auto]. }
  split; [|split; [|split]].
  - intros u v I. apply (in_edges n m N) in I. destruct I as (k & i & j & Hi & Hj & E).
    assert (F := flip_in n m N k i j Hi Hj). assert (S := segment_of_edge n m N H4 H2 Hm Hm0 k i j Hi Hj). unfold boundary in S.
    rewrite <- E in S, F. cbn [fst snd flip] in S, F. unfold flip in F. cbn [fst snd] in F. rewrite S, F.
    assert (Dk : {k = KC} + {k <> KC}) by (destruct k; auto; right; discriminate).
    assert (Dd : {k = KD} + {k <> KD}) by (destruct k; auto; right; discriminate).
    destruct (Nat.eq_dec j 0), (Nat.eq_dec j (m - 1)), Dk, Dd; tauto.
  - intros u v s s' I I' J J'. specialize (U u v). apply Fj in J, J'.
    assert (X : In s (filter (fun s0 : (nat * nat) * nat => let '((a, b), _) := s0 in (a =? u) && (b =? v) || (a =? v) && (b =? u)) (inner_segments n ++ outer_segments n m))) by (apply filter_In; auto).
    assert (Y : In s' (filter (fun s0 : (nat * nat) * nat => let '((a, b), _) := s0 in (a =? u) && (b =? v) || (a =? v) && (b =? u)) (inner_segments n ++ outer_segments n m))) by (apply filter_In; auto).
    destruct (filter _ _) as [|x [|y l]]; [contradiction | | cbn in U; lia]. destruct X as [<-|[]], Y as [<-|[]]. reflexivity.
  - clear - U Fj. induction (inner_segments n ++ outer_segments n m) as [|s l IH]; [constructor|]. constructor.
    + intros C. destruct s as [[a b] k] eqn:Es. specialize (U a b). cbn [filter] in U. rewrite !Nat.eqb_refl in U. cbn [andb orb length] in U.
      assert (X : In ((a, b), k) (filter (fun s0 : (nat * nat) * nat => let '((a0, b0), _) := s0 in (a0 =? a) && (b0 =? b) || (a0 =? b) && (b0 =? a)) l)).
      { apply filter_In. split; [exact C|]. rewrite !Nat.eqb_refl. reflexivity. }
      destruct (filter _ l); [contradiction | cbn in U; lia].
    + apply IH. intros u v. specialize (U u v). cbn [filter] in U. destruct (let '((a, b), _) := s in _); cbn [length] in U; lia.
  - intros s u v I J.
    assert (X : exists k i j, i < n /\ j < m /\ joins s (fst (arrow n k i j)) (snd (arrow n k i j))).
    { apply in_app_iff in I. destruct I as [I|I].
      - apply (in_inner n N) in I. destruct I as (i & Hi & ->). exists KC, i, 0. split; [exact Hi|]. split; [lia|]. right. unfold arrow, num. cbn. f_equal; lia.
      - rewrite (outer_as_map n m N H4 H2 Hm Hm0) in I. apply in_map_iff in I. destruct I as (i & <- & Hi). apply in_seq in Hi.
        exists KD, i, (m - 1). split; [lia|]. split; [lia|]. unfold arrow, num. cbn [tail head fst snd]. replace (m - 1 + 1) with m by lia.
        destruct (outer_ends n m N H4 H2 Hm Hm0 i ltac:(lia)) as [F|F]; [left|right]; exact F. }
    destruct X as (k & i & j & Hi & Hj & X).
    assert (Y : In (arrow n k i j) (directed_edges (ring_triangles n m))) by (apply (in_edges n m N); exists k, i, j; auto).
    destruct (arrow n k i j) as [p q]. cbn [fst snd] in X. destruct J as [J|J], X as [X|X]; rewrite J in X; injection X as -> ->; auto.
Qed.
Print Assumptions c36_conforming.

(** ** Geometry *)
Open Scope R_scope.

(** Points in polar coordinates. *)
Definition polar (r a : R) : R * R := (r * cos a, r * sin a).

Lemma polar_area : forall r a s b t c,
  area2 (polar r a) (polar s b) (polar t c) = r * s * sin (b - a) + s * t * sin (c - b) + t * r * sin (a - c).
Proof. intros. unfold area2, polar. cbn [fst snd]. rewrite !sin_minus. ring. Qed.

Lemma polar_period : forall r a, polar r (a + 2 * PI) = polar r a.
Proof. intros. unfold polar. rewrite cos_plus, sin_plus, cos_2PI, sin_2PI. f_equal; ring. Qed.

Section Geometry.
Variables (ri ro geom : R) (n m : nat) (r : ring).
Hypotheses (Hri : 0 < ri) (Hro : ri < ro) (Hgeom : 0 < geom) (H : omesh n m = Ok r).

Notation radius := (radius ri ro geom m). Notation angle := (angle n).
(** Coordinates of the point at a position. *)
Notation at_ k := (coordinates ri ro geom n m (nth k (points r) (0, 0)%nat)).

Lemma n_pos : (3 <= INR n).
Proof. destruct (omesh_ok _ _ _ H) as (A & _). apply admissible_3 in A. apply le_INR in A. cbn in A. lra. Qed.

Lemma m_pos : (0 < INR m).
Proof. destruct (omesh_ok _ _ _ H) as ((_ & _ & A & _) & _). apply lt_INR in A. exact A. Qed.

Lemma power_mono : forall x y, 0 <= x -> x < y -> power x geom < power y geom.
Proof.
  intros x y X Y. unfold power. destruct (Req_EM_T x 0) as [->|Nx]; destruct (Req_EM_T y 0) as [->|Ny]; try lra.
  - unfold Rpower. apply exp_pos.
  - unfold Rpower. apply exp_increasing. apply Rmult_lt_compat_l; [exact Hgeom|]. apply ln_increasing; lra.
Qed.

Lemma radius_mono : forall j, radius j < radius (j + 1).
Proof.
  intros j. unfold M_Omesh.radius. apply Rplus_lt_compat_r, Rmult_lt_compat_l; [lra|]. assert (M := m_pos). apply power_mono.
  - apply Rmult_le_pos; [apply pos_INR | left; apply Rinv_0_lt_compat, M].
  - apply Rmult_lt_compat_r; [apply Rinv_0_lt_compat, M|]. rewrite plus_INR. cbn. lra.
Qed.

Lemma radius_0 : radius 0 = ri.
Proof. unfold M_Omesh.radius, power. cbn [INR]. destruct (Req_EM_T _ 0) as [E|E]; [ring|]. exfalso. apply E. unfold Rdiv. ring. Qed.

Lemma radius_m : radius m = ro.
Proof.
  unfold M_Omesh.radius, power. assert (M := m_pos). replace (INR m / INR m) with 1 by (field; lra).
  destruct (Req_EM_T 1 0); [lra|]. unfold Rpower. rewrite ln_1, Rmult_0_r, exp_0. ring.
Qed.

Lemma radius_ge : forall j, ri <= radius j.
Proof.
  induction j as [|j IH]; [rewrite radius_0; lra|]. assert (X := radius_mono j). replace (j + 1)%nat with (S j) in X by lia. lra.
Qed.

Lemma radius_le : forall j, (j <= m)%nat -> radius j <= ro.
Proof.
  intros j L. assert (G : forall k, radius j <= radius (j + k)).
  { induction k as [|k IH]; [rewrite Nat.add_0_r; lra|]. assert (X := radius_mono (j + k)). replace (j + k + 1)%nat with (j + S k)%nat in X by lia. lra. }
  specialize (G (m - j)%nat). replace (j + (m - j))%nat with m in G by lia. rewrite radius_m in G. exact G.
Qed.

Lemma next_polar : forall i j, (i < n)%nat -> coordinates ri ro geom n m (next n i, j) = polar (radius j) (angle i j + 2 * (PI / INR n)).
Proof.
  intros i j I. assert (Nn := n_pos). unfold coordinates, next. destruct (Nat.eqb_spec i (n - 1)) as [->|D].
  - fold (polar (radius j) (angle 0 j)). rewrite <- polar_period. f_equal. unfold M_Omesh.angle. rewrite minus_INR by lia. cbn [INR]. field. lra.
  - fold (polar (radius j) (angle (i + 1) j)). f_equal. unfold M_Omesh.angle. rewrite plus_INR. cbn [INR]. field. lra.
Qed.

Lemma angle_up : forall i j, angle i (j + 1) = angle i j + PI / INR n.
Proof. intros. assert (Nn := n_pos). unfold M_Omesh.angle. rewrite plus_INR. cbn [INR]. field. lra. Qed.

Lemma nth_point : forall i j, (i < n)%nat -> (j <= m)%nat -> nth (i + j * n) (points r) (0, 0)%nat = (i, j).
Proof. intros i j I J. destruct (omesh_ok _ _ _ H) as (_ & ->). cbn [points]. apply nth_error_nth, points_at; assumption. Qed.

Lemma lower_area : forall i j, (i < n)%nat -> (j < m)%nat ->
  area2 (at_ (i + j * n)) (at_ (i + (j + 1) * n)) (at_ (next n i + j * n)) =
  2 * radius j * sin (PI / INR n) * (radius (j + 1) - radius j * cos (PI / INR n)).
Proof.
  intros i j I J. destruct (omesh_ok _ _ _ H) as (A & _). apply admissible_3 in A.
  rewrite !nth_point by (try apply next_lt; lia). rewrite next_polar by exact I. unfold coordinates. fold (polar (radius j) (angle i j)) (polar (radius (j + 1)) (angle i (j + 1))).
  rewrite polar_area, angle_up. set (d := PI / INR n).
  replace (angle i j + d - angle i j) with d by ring. replace (angle i j + 2 * d - (angle i j + d)) with d by ring.
  replace (angle i j - (angle i j + 2 * d)) with (- (2 * d)) by ring. rewrite sin_neg, sin_2a. ring.
Qed.

Lemma upper_area : forall i j, (i < n)%nat -> (j < m)%nat ->
  area2 (at_ (i + (j + 1) * n)) (at_ (next n i + (j + 1) * n)) (at_ (next n i + j * n)) =
  2 * radius (j + 1) * sin (PI / INR n) * (radius (j + 1) * cos (PI / INR n) - radius j).
Proof.
  intros i j I J. destruct (omesh_ok _ _ _ H) as (A & _). apply admissible_3 in A.
  rewrite !nth_point by (try apply next_lt; lia). rewrite !next_polar by exact I. unfold coordinates. fold (polar (radius (j + 1)) (angle i (j + 1))).
  rewrite polar_area, angle_up. set (d := PI / INR n).
  replace (angle i j + d + 2 * d - (angle i j + d)) with (2 * d) by ring. replace (angle i j + 2 * d - (angle i j + d + 2 * d)) with (- d) by ring.
  replace (angle i j + d - (angle i j + 2 * d)) with (- d) by ring. rewrite !sin_neg, sin_2a. ring.
Qed.

Lemma step_angle : 0 < PI / INR n < PI / 2.
Proof.
  assert (Nn := n_pos). assert (P := PI_RGT_0). split; [apply Rmult_lt_0_compat; [exact P | apply Rinv_0_lt_compat; lra]|].
  apply Rmult_lt_compat_l; [exact P|]. apply Rinv_lt_contravar; lra.
Qed.

Lemma area2_rotate : forall a b c, area2 a b c = area2 b c a.
Proof. intros. unfold area2. ring. Qed.

Lemma orientation : (forall a b c, In (a, b, c) (triangles r) -> 0 < area2 (at_ a) (at_ b) (at_ c)) <->
  (forall j, (j < m)%nat -> radius j < radius (j + 1) * cos (PI / INR n)).
Proof.
  destruct (omesh_ok _ _ _ H) as (A & E). assert (N3 := admissible_3 _ _ A). destruct step_angle as [S1 S2].
  assert (Sp : 0 < sin (PI / INR n)) by (apply sin_gt_0; assert (P := PI_RGT_0); lra).
  split.
  - intros Q j J. assert (Z : (0 < n)%nat) by lia. assert (I : In (0 + (j + 1) * n, next n 0 + (j + 1) * n, next n 0 + j * n)%nat (triangles r)).
    { rewrite E. cbn [triangles]. rewrite triangles_cells by exact N3. apply in_flat_map. exists j. split; [apply in_seq; lia|].
      apply in_flat_map. exists 0%nat. split; [apply in_seq; lia|]. unfold full_cell, next. destruct (Nat.eqb_spec 0 (n - 1)); [lia|]. right. left. cbn [Nat.add]. f_equal. f_equal. lia. }
    apply Q in I. rewrite (upper_area 0 j Z J) in I. assert (R1 := radius_ge (j + 1)).
    assert (P : 0 < 2 * radius (j + 1) * sin (PI / INR n)) by (repeat apply Rmult_lt_0_compat; lra).
    destruct (Rlt_le_dec (radius j) (radius (j + 1) * cos (PI / INR n))) as [L|L]; [exact L|]. exfalso.
    assert (X : 2 * radius (j + 1) * sin (PI / INR n) * (radius (j + 1) * cos (PI / INR n) - radius j) <= 0); [|lra].
    rewrite <- (Rmult_0_r (2 * radius (j + 1) * sin (PI / INR n))). apply Rmult_le_compat_l; lra.
  - intros Q a b c I. rewrite E in I. cbn [triangles] in I. destruct (triangle_form _ _ _ _ _ N3 I) as (i & j & Hi & Hj & F).
    assert (R0 := radius_ge j). assert (R1 := radius_mono j). specialize (Q j Hj).
    destruct F as [F|[F|F]]; injection F as -> -> ->.
    + rewrite lower_area by assumption. repeat apply Rmult_lt_0_compat; try lra.
      assert (C := COS_bound (PI / INR n)). nra.
    + rewrite upper_area by assumption. repeat apply Rmult_lt_0_compat; lra.
    + rewrite area2_rotate, upper_area by assumption. repeat apply Rmult_lt_0_compat; lra.
Qed.

(** Boundary elements labelled left lie in the half plane x <= 0 and those labelled right in x >= 0. *)
Lemma outer_angle : forall i, angle i m = PI / 2 + 2 * (PI / INR n) * (INR i - INR (offset n m)).
Proof.
  intros i. destruct (omesh_ok _ _ _ H) as (A & _). assert (N3 := admissible_3 _ _ A). destruct A as (_ & H4 & Hm0 & H2 & Hm).
  destruct (offset_bound n m N3 H4 H2 Hm Hm0) as (_ & B & _ & D & F). assert (Nn := n_pos).
  assert (X : INR n = 4 * INR (offset n m) + 2 * INR m).
  { assert (Y : n = (4 * offset n m + 2 * m)%nat) by lia. apply (f_equal INR) in Y. rewrite plus_INR, !mult_INR in Y.
    replace (INR 4) with 4 in Y by (cbn; ring). replace (INR 2) with 2 in Y by (cbn; ring). exact Y. }
  unfold M_Omesh.angle. replace (PI / 2) with (PI / INR n * (2 * INR (offset n m) + INR m)) by (rewrite X; field; lra). field. lra.
Qed.

Lemma left_point : forall i, (offset n m <= i <= n / 2 + offset n m)%nat -> cos (angle i m) <= 0.
Proof.
  intros i [L U]. rewrite outer_angle. assert (Nn := n_pos). destruct (omesh_ok _ _ _ H) as (A & _). assert (N3 := admissible_3 _ _ A). destruct A as (_ & H4 & Hm0 & H2 & Hm).
  destruct (offset_bound n m N3 H4 H2 Hm Hm0) as (_ & B & C & _ & _). apply le_INR in L, U. rewrite plus_INR in U.
  assert (X : 2 * INR (n / 2) = INR n).
  { assert (Y : (n = 2 * (n / 2))%nat) by lia. apply (f_equal INR) in Y. rewrite mult_INR in Y. replace (INR 2) with 2 in Y by (cbn; ring). symmetry. exact Y. }
  destruct step_angle as [S1 _].
  assert (Y : 2 * (PI / INR n) * (INR i - INR (offset n m)) <= PI).
  { replace PI with (2 * (PI / INR n) * INR (n / 2)) at 2 by (replace (INR (n / 2)) with (INR n / 2) by lra; field; lra).
    apply Rmult_le_compat_l; lra. }
  assert (Z : 0 <= 2 * (PI / INR n) * (INR i - INR (offset n m))) by (apply Rmult_le_pos; lra).
  apply cos_le_0; lra.
Qed.

Lemma right_point : forall i, (i <= offset n m \/ n / 2 + offset n m <= i <= n)%nat -> 0 <= cos (angle i m).
Proof.
  intros i D. rewrite outer_angle. assert (Nn := n_pos). destruct (omesh_ok _ _ _ H) as (A & _). assert (N3 := admissible_3 _ _ A). destruct A as (_ & H4 & Hm0 & H2 & Hm).
  destruct (offset_bound n m N3 H4 H2 Hm Hm0) as (_ & B & C & M & F). destruct step_angle as [S1 _]. assert (P := PI_RGT_0).
  assert (X : 2 * INR (n / 2) = INR n).
  { assert (Y : (n = 2 * (n / 2))%nat) by lia. apply (f_equal INR) in Y. rewrite mult_INR in Y. replace (INR 2) with 2 in Y by (cbn; ring). symmetry. exact Y. }
  assert (W : 4 * INR (n / 4) = INR n).
  { assert (Y : (n = 4 * (n / 4))%nat) by lia. apply (f_equal INR) in Y. rewrite mult_INR in Y. replace (INR 4) with 4 in Y by (cbn; ring). symmetry. exact Y. }
  assert (V : INR (offset n m) <= INR (n / 4)) by (apply le_INR; lia). assert (V0 := pos_INR (offset n m)). assert (I0 := pos_INR i).
  assert (Q : 2 * (PI / INR n) * INR (n / 4) = PI / 2) by (replace (INR (n / 4)) with (INR n / 4) by lra; field; lra).
  assert (Q2 : 2 * (PI / INR n) * INR n = 2 * PI) by (field; lra).
  destruct D as [L|[L U]].
  - apply le_INR in L. assert (Y : 2 * (PI / INR n) * (INR i - INR (offset n m)) <= 0) by (rewrite <- (Rmult_0_r (2 * (PI / INR n))); apply Rmult_le_compat_l; lra).
    assert (Z : - (PI / 2) <= 2 * (PI / INR n) * (INR i - INR (offset n m))).
    { rewrite <- Q, Ropp_mult_distr_r. apply Rmult_le_compat_l; lra. }
    apply cos_ge_0; lra.
  - apply le_INR in L, U. rewrite plus_INR in L. set (x := PI / 2 + 2 * (PI / INR n) * (INR i - INR (offset n m))).
    replace (cos x) with (cos (x - 2 * PI)) by (rewrite cos_minus, cos_2PI, sin_2PI; ring).
    assert (Y : PI <= 2 * (PI / INR n) * (INR i - INR (offset n m))).
    { replace PI with (2 * (PI / INR n) * INR (n / 2)) at 1 by (replace (INR (n / 2)) with (INR n / 2) by lra; field; lra). apply Rmult_le_compat_l; lra. }
    assert (Z : 2 * (PI / INR n) * (INR i - INR (offset n m)) <= 2 * PI).
    { rewrite <- Q2. apply Rmult_le_compat_l; lra. }
    unfold x. apply cos_ge_0; lra.
Qed.

Lemma label_sides : forall a b k, In ((a, b), k) (segments r) ->
  (k = 1%nat -> Rsqr (fst (at_ a)) + Rsqr (snd (at_ a)) = Rsqr ri /\ Rsqr (fst (at_ b)) + Rsqr (snd (at_ b)) = Rsqr ri) /\
  (k <> 1%nat -> Rsqr (fst (at_ a)) + Rsqr (snd (at_ a)) = Rsqr ro /\ Rsqr (fst (at_ b)) + Rsqr (snd (at_ b)) = Rsqr ro) /\
  (k = 2%nat -> fst (at_ a) <= 0 /\ fst (at_ b) <= 0) /\ (k = 3%nat -> 0 <= fst (at_ a) /\ 0 <= fst (at_ b)).
Proof.
  intros a b k I. destruct (omesh_ok _ _ _ H) as (A & E). assert (N3 := admissible_3 _ _ A). destruct A as (_ & H4 & Hm0 & H2 & Hm).
  destruct (offset_bound n m N3 H4 H2 Hm Hm0) as (O1 & _).
  assert (Sq : forall j x, Rsqr (fst (polar (radius j) x)) + Rsqr (snd (polar (radius j) x)) = Rsqr (radius j)).
  { intros j x. cbn [polar fst snd]. rewrite !Rsqr_mult, <- Rmult_plus_distr_l, (Rplus_comm (Rsqr (cos x))), sin2_cos2. ring. }
  assert (Sc : forall i j, (i < n)%nat -> (j <= m)%nat -> at_ (i + j * n) = polar (radius j) (angle i j)) by (intros i j Hi Hj; rewrite nth_point by assumption; reflexivity).
  rewrite E in I. cbn [segments] in I. apply in_app_iff in I. destruct I as [I|I].
  - apply (in_inner n N3) in I. destruct I as (i & Hi & F). injection F as -> -> ->. assert (X := next_lt n N3 i Hi).
    assert (S0 : forall k, (k < n)%nat -> at_ k = polar (radius 0) (angle k 0)) by (intros k Hk; rewrite <- (Sc k 0%nat Hk) by lia; rewrite Nat.mul_0_l, Nat.add_0_r; reflexivity).
    rewrite !S0 by lia. rewrite !Sq, radius_0. repeat split; try reflexivity; try discriminate; contradiction.
  - rewrite (outer_as_map n m N3 H4 H2 Hm Hm0) in I. apply in_map_iff in I. destruct I as (i & F & Hi). apply in_seq in Hi.
    assert (Hi' : (i < n)%nat) by lia. assert (X := next_lt n N3 i Hi').
    assert (G : (a = i + m * n /\ b = next n i + m * n)%nat \/ (a = next n i + m * n /\ b = i + m * n)%nat).
    { destruct (outer_ends n m N3 H4 H2 Hm Hm0 i Hi') as [G|G]; rewrite F in G; cbn [fst] in G; injection G as -> ->; auto. }
    assert (K : k = outer_label n m i) by (unfold outer_segment in F; injection F as _ <-; reflexivity).
    assert (Cn : cos (angle (next n i) m) = cos (angle (i + 1) m)).
    { unfold next. destruct (Nat.eqb_spec i (n - 1)) as [->|D]; [|reflexivity]. replace (n - 1 + 1)%nat with n by lia.
      replace (angle n m) with (angle 0 m + 2 * PI); [rewrite cos_plus, cos_2PI, sin_2PI; ring|]. unfold M_Omesh.angle. assert (Nn := n_pos). cbn [INR]. field. lra. }
    assert (Lx : forall x, cos x <= 0 -> fst (polar (radius m) x) <= 0) by (intros x Cx; cbn; rewrite radius_m; nra).
    assert (Rx : forall x, 0 <= cos x -> 0 <= fst (polar (radius m) x)) by (intros x Cx; cbn; rewrite radius_m; nra).
    rewrite radius_m in Lx, Rx.
    assert (Kn : k = 2%nat \/ k = 3%nat) by (rewrite K; unfold outer_label; destruct (_ <? _)%nat; [|destruct (_ <? _)%nat]; auto).
    assert (K2 : k = 2%nat -> cos (angle i m) <= 0 /\ cos (angle (next n i) m) <= 0).
    { intros ->. rewrite Cn. unfold outer_label in K. destruct (Nat.ltb_spec i (offset n m)); [discriminate|].
      destruct (Nat.ltb_spec i (n / 2 + offset n m)); [|discriminate]. split; apply left_point; lia. }
    assert (K3 : k = 3%nat -> 0 <= cos (angle i m) /\ 0 <= cos (angle (next n i) m)).
    { intros ->. rewrite Cn. unfold outer_label in K. destruct (Nat.ltb_spec i (offset n m)).
      - split; apply right_point; lia.
      - destruct (Nat.ltb_spec i (n / 2 + offset n m)); [discriminate|]. split; apply right_point; lia. }
    destruct G as [[-> ->]|[-> ->]]; rewrite !Sc by lia; rewrite !Sq, radius_m;
      (split; [intros ->; destruct Kn; discriminate|]); (split; [auto|]); (split; [intros Q; destruct (K2 Q) as [U V]; split; apply Lx; assumption | intros Q; destruct (K3 Q) as [U V]; split; apply Rx; assumption]).
Qed.
End Geometry.

(** Cylinder elements lie on the inner circle, the others on the outer circle; the left ones in the half plane
    x <= 0 and the right ones in x >= 0. *)
Theorem c36_boundary_parts : forall ri ro geom n m r, 0 < ri -> ri < ro -> 0 < geom -> omesh n m = Ok r ->
  let at_ k := coordinates ri ro geom n m (nth k (points r) (0, 0)%nat) in
  forall a b k, In ((a, b), k) (segments r) ->
  (k = 1%nat -> Rsqr (fst (at_ a)) + Rsqr (snd (at_ a)) = Rsqr ri /\ Rsqr (fst (at_ b)) + Rsqr (snd (at_ b)) = Rsqr ri) /\
  (k <> 1%nat -> Rsqr (fst (at_ a)) + Rsqr (snd (at_ a)) = Rsqr ro /\ Rsqr (fst (at_ b)) + Rsqr (snd (at_ b)) = Rsqr ro) /\
  (k = 2%nat -> fst (at_ a) <= 0 /\ fst (at_ b) <= 0) /\ (k = 3%nat -> 0 <= fst (at_ a) /\ 0 <= fst (at_ b)).
Proof. intros ri ro geom n m r A B C D at_ a b k I. exact (label_sides ri ro geom n m r A B D a b k I). Qed.
Print Assumptions c36_boundary_parts.

(** All triangles are positively oriented exactly if every layer is thick enough. *)
Theorem c56_orientation : forall ri ro geom n m r, 0 < ri -> ri < ro -> 0 < geom -> omesh n m = Ok r ->
  let at_ k := coordinates ri ro geom n m (nth k (points r) (0, 0)%nat) in
  (forall a b c, In (a, b, c) (triangles r) -> 0 < area2 (at_ a) (at_ b) (at_ c)) <->
  (forall j, (j < m)%nat -> radius ri ro geom m j < radius ri ro geom m (j + 1) * cos (PI / INR n)).
Proof. intros ri ro geom n m r A B C D at_. exact (orientation ri ro geom n m r A B C D). Qed.
Print Assumptions c56_orientation.

(** The claim that the accepted parameters always give a valid mesh is false: thin rings contain degenerate or
    inverted triangles. *)
Theorem c56_thin_ring_refuted : forall ri ro geom n m r, 0 < ri -> ri < ro -> 0 < geom -> omesh n m = Ok r ->
  ro * cos (PI / INR n) <= ri ->
  let at_ k := coordinates ri ro geom n m (nth k (points r) (0, 0)%nat) in
  ~ (forall a b c, In (a, b, c) (triangles r) -> 0 < area2 (at_ a) (at_ b) (at_ c)).
Proof.
  intros ri ro geom n m r A B C D T at_ Q. assert (Q' := proj1 (c56_orientation ri ro geom n m r A B C D) Q). clear Q. rename Q' into Q.
  destruct (omesh_ok _ _ _ D) as ((_ & _ & M & _) & _). specialize (Q 0%nat M).
  assert (X := radius_ge ri ro geom n m r B C D 0). assert (Y := radius_le ri ro geom n m r B C D (0 + 1) ltac:(lia)).
  assert (Z := step_angle n m r D). assert (W : 0 < cos (PI / INR n)) by (apply cos_gt_0; lra).
  assert (V : radius ri ro geom m (0 + 1) * cos (PI / INR n) <= ro * cos (PI / INR n)) by (apply Rmult_le_compat_r; lra). lra.
Qed.
Print Assumptions c56_thin_ring_refuted.

(** The closing outer boundary element runs against the direction of the others. *)
Theorem c56_closing_segment_refuted : forall n m r, omesh n m = Ok r ->
  exists u v w, In ((u, v), 3%nat) (segments r) /\ In (v, u) (directed_edges (triangles r)) /\
    In ((w, w + 1)%nat, 2%nat) (segments r) /\ In (w, w + 1)%nat (directed_edges (triangles r)).
Proof.
  intros n m r H. destruct (omesh_ok _ _ _ H) as (A & ->). assert (N3 := admissible_3 _ _ A). destruct A as (_ & H4 & Hm0 & H2 & Hm).
  destruct (offset_bound n m N3 H4 H2 Hm Hm0) as (O1 & O2 & O3 & _ & _). cbn [segments triangles].
  exists (m * n)%nat, (n - 1 + m * n)%nat, (offset n m + m * n)%nat. split.
  - apply in_app_iff. right. unfold outer_segments. cbn zeta. rewrite !in_app_iff. right. right. right. left. reflexivity.
  - split.
    + apply (in_edges n m N3). exists KD, (n - 1)%nat, (m - 1)%nat. split; [lia|]. split; [lia|]. unfold arrow, num, tail, head, next. rewrite Nat.eqb_refl. cbn [fst snd].
      replace (m - 1 + 1)%nat with m by lia. reflexivity.
    + split.
      * apply in_app_iff. right. unfold outer_segments. cbn zeta. rewrite !in_app_iff. right. left. apply in_map_iff. exists (offset n m). split; [reflexivity|].
        unfold range. apply in_seq. lia.
      * apply (in_edges n m N3). exists KD, (offset n m), (m - 1)%nat. split; [lia|]. split; [lia|]. unfold arrow, num, tail, head, next. cbn [fst snd].
        destruct (Nat.eqb_spec (offset n m) (n - 1)); [lia|]. replace (m - 1 + 1)%nat with m by lia. f_equal; lia.
Qed.
Print Assumptions c56_closing_segment_refuted.

Example c36_example : match omesh 8 2 with
  | Ok r => length (points r) = 24%nat /\ length (triangles r) = 32%nat /\ In (15, 23, 8)%nat (triangles r) /\ In ((16, 23), 3)%nat (segments r)
  | Err _ => False end.
Proof. vm_compute. intuition. Qed.

(** A valid mesh: eight cells around, layers 1, 2 and 3. *)
Example c56_example : forall j, (j < 2)%nat -> radius 1 3 1 2 j < radius 1 3 1 2 (j + 1) * cos (PI / INR 8).
Proof.
  assert (R : forall j, radius 1 3 1 2 j = INR j + 1).
  { intros j. unfold radius, power. destruct (Req_EM_T (INR j / INR 2) 0) as [E|E].
    - assert (INR j = 0) by (cbn in E; lra). lra.
    - unfold Rpower. rewrite Rmult_1_l, exp_ln; [cbn; field|]. assert (P := pos_INR j). replace (INR 2) with 2 in * by (cbn; ring).
      assert (INR j <> 0) by (intros Q; apply E; rewrite Q; field). apply Rdiv_lt_0_compat; lra. }
  assert (P := PI_RGT_0). replace (INR 8) with 8 by (cbn; ring). assert (C : 7/10 < cos (PI / 8)).
  { apply Rlt_trans with (cos (PI / 4)).
    - rewrite cos_PI4. assert (S : sqrt 2 < 10 / 7). { rewrite <- (sqrt_Rsqr (10/7)) by lra. apply sqrt_lt_1; unfold Rsqr; lra. }
      assert (S0 : 0 < sqrt 2) by (apply sqrt_lt_R0; lra). apply (Rmult_lt_reg_r (sqrt 2)); [exact S0|]. unfold Rdiv. rewrite Rmult_1_l, Rinv_l by lra. lra.
    - apply cos_decreasing_1; lra. }
  intros j J. rewrite !R, plus_INR. cbn [INR]. destruct j as [|[|j]]; [| |lia]; cbn [INR]; lra.
Qed.

(** A thin ring: radii 10 and 11 with four cells around. *)
Example c56_thin_example : exists r, omesh 4 2 = Ok r /\ 11 * cos (PI / INR 4) <= 10.
Proof.
  eexists. split; [vm_compute; reflexivity|]. replace (PI / INR 4) with (PI / 4) by (cbn; field). rewrite cos_PI4.
  assert (S : 11 / 10 < sqrt 2). { rewrite <- (sqrt_Rsqr (11/10)) by lra. apply sqrt_lt_1; unfold Rsqr; lra. }
  assert (1 / sqrt 2 <= 10 / 11); [|lra]. unfold Rdiv. rewrite Rmult_1_l.
  replace (10 * / 11) with (/ (11 / 10)) by field. apply Rinv_le_contravar; lra.
Qed.
