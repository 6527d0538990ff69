(** Lemmas on the ring mesh. *)
From Coq Require Import List Bool Arith Lia Permutation.
From Verif Require Import Base M_Omesh S_Omesh.
Import ListNotations.

Lemma NoDup_flat_map : forall (A B : Type) (f : A -> list B) l, NoDup l -> (forall x, In x l -> NoDup (f x)) ->
  (forall x y b, In x l -> In y l -> In b (f x) -> In b (f y) -> x = y) -> NoDup (flat_map f l).
Proof.
  intros A B f l. induction l as [|x l IH]; intros N F D; [constructor|]. cbn. inversion N as [|? ? X N']; subst.
  assert (I : NoDup (flat_map f l)).
  { apply IH; [exact N' | intros; apply F; right; assumption | intros; eapply D; try right; eassumption]. }
  assert (F0 := F x (or_introl eq_refl)).
  assert (J : forall b, In b (f x) -> ~ In b (flat_map f l)).
  { intros b Hb C. apply in_flat_map in C. destruct C as (y & Iy & Hy).
    assert (x = y) by (eapply D; [left; reflexivity | right; exact Iy | exact Hb | exact Hy]). subst. contradiction. }
  clear D F IH N. induction (f x) as [|b bs IHb]; [exact I|]. cbn. inversion F0; subst. constructor.
  - rewrite in_app_iff. intros [C|C]; [contradiction|]. apply (J b); [left; reflexivity | exact C].
  - apply IHb; [assumption|]. intros c Hc. apply J. right. exact Hc.
Qed.

Lemma NoDup_map_inj : forall (A B : Type) (f : A -> B) l, (forall x y, In x l -> In y l -> f x = f y -> x = y) -> NoDup l -> NoDup (map f l).
Proof.
  intros A B f l. induction l as [|x l IH]; intros F N; [constructor|]. inversion N; subst. cbn. constructor.
  - intros C. apply in_map_iff in C. destruct C as (y & E & I).
    assert (x = y) by (apply F; [left; reflexivity | right; exact I | symmetry; exact E]). subst. contradiction.
  - apply IH; [intros; apply F; try right; assumption | assumption].
Qed.

(** Number of the next point on a circle of [n] points. *)
Definition next (n i : nat) : nat := if i =? n - 1 then 0 else i + 1.
(** Number of the previous point. *)
Definition prev (n i : nat) : nat := if i =? 0 then n - 1 else i - 1.

Section Ring.
Variables n m : nat.
Hypothesis Hn : 3 <= n.

Notation at_ i j := (i + j * n).

Lemma next_lt : forall i, i < n -> next n i < n.
Proof. intros i H. unfold next. destruct (Nat.eqb_spec i (n - 1)); lia. Qed.
Lemma prev_lt : forall i, i < n -> prev n i < n.
Proof. intros i H. unfold prev. destruct (Nat.eqb_spec i 0); lia. Qed.
Lemma next_prev : forall i, i < n -> next n (prev n i) = i.
Proof. intros i H. unfold next, prev. destruct (Nat.eqb_spec i 0); match goal with |- context [?a =? n - 1] => destruct (Nat.eqb_spec a (n - 1)) end; lia. Qed.
Lemma at_inj : forall i j i' j', i < n -> i' < n -> at_ i j = at_ i' j' -> i = i' /\ j = j'.
Proof.
  intros i j i' j' A B E.
  assert (j = j') by (destruct (Nat.lt_trichotomy j j') as [L|[L|L]]; nia). subst. split; [lia | reflexivity].
Qed.

(** The edges of a cell, as pairs of points. *)
Inductive kind := KA | KB | KC | KD | KE | KF.
Definition tail (k : kind) (i j : nat) : nat * nat :=
  match k with
  | KA => (i, j) | KB => (i, j + 1) | KC => (next n i, j)
  | KD => (i, j + 1) | KE => (next n i, j + 1) | KF => (next n i, j)
  end.
Definition head (k : kind) (i j : nat) : nat * nat :=
  match k with
  | KA => (i, j + 1) | KB => (next n i, j) | KC => (i, j)
  | KD => (next n i, j + 1) | KE => (next n i, j) | KF => (i, j + 1)
  end.
Definition num (p : nat * nat) : nat := at_ (fst p) (snd p).
Definition arrow (k : kind) (i j : nat) : nat * nat := (num (tail k i j), num (head k i j)).

Definition full_cell (i j : nat) : list (nat * nat * nat) := if i =? n - 1 then closing_cell n j else cell n i j.

Lemma triangles_cells : ring_triangles n m = flat_map (fun j => flat_map (fun i => full_cell i j) (seq 0 n)) (seq 0 m).
Proof.
  unfold ring_triangles. apply flat_map_ext. intros j.
  replace (seq 0 n) with (seq 0 (n - 1) ++ [n - 1]).
  2:{ change [n - 1] with (seq (0 + (n - 1)) 1). rewrite <- seq_app. f_equal. lia. }
  rewrite flat_map_app. f_equal.
  - assert (forall l, (forall i, In i l -> i < n - 1) -> flat_map (fun i => cell n i j) l = flat_map (fun i => full_cell i j) l) as E.
    { induction l as [|i l IH]; intros H; [reflexivity|]. cbn. rewrite IH by (intros; apply H; right; assumption). f_equal.
      unfold full_cell. specialize (H i (or_introl eq_refl)). destruct (Nat.eqb_spec i (n - 1)); [lia | reflexivity]. }
    apply E. intros i I. apply in_seq in I. lia.
  - cbn. unfold full_cell. rewrite Nat.eqb_refl. reflexivity.
Qed.

Definition arrows (i j : nat) : list (nat * nat) := map (fun k => arrow k i j) [KA; KB; KC; KD; KE; KF].

Lemma cell_arrows : forall i j, i < n -> Permutation (directed_edges (full_cell i j)) (arrows i j).
Proof.
  intros i j H. unfold full_cell, arrows, arrow, num, tail, head, next. destruct (Nat.eqb_spec i (n - 1)) as [->|D]; cbn [closing_cell cell directed_edges flat_map sides app map fst snd].
  - cbn [Nat.add]. apply perm_skip, perm_skip, perm_skip. unfold Nat.add at 1. fold Nat.add.
    set (a := j * n). set (b := n - 1 + (j + 1) * n). set (c := (j + 1) * n).
    eapply perm_trans; [apply perm_swap|]. apply perm_skip. apply perm_swap.
  - replace (i + (j + 1) * n + 1) with (i + 1 + (j + 1) * n) by lia. apply Permutation_refl.
Qed.

Lemma edges_of_ring : Permutation (directed_edges (ring_triangles n m)) (flat_map (fun j => flat_map (fun i => arrows i j) (seq 0 n)) (seq 0 m)).
Proof.
  rewrite triangles_cells. generalize (seq 0 m) as js. intros js. induction js as [|j js IH]; [constructor|].
  cbn [flat_map]. unfold directed_edges in *. rewrite flat_map_app. apply Permutation_app; [|exact IH].
  assert (E : forall is, (forall i, In i is -> i < n) -> Permutation (flat_map sides (flat_map (fun i => full_cell i j) is)) (flat_map (fun i => arrows i j) is)).
  { induction is as [|i is IHi]; intros Hi; [constructor|]. cbn [flat_map]. rewrite flat_map_app. apply Permutation_app.
    - apply cell_arrows, Hi. left. reflexivity.
    - apply IHi. intros; apply Hi; right; assumption. }
  apply E. intros i I. apply in_seq in I. lia.
Qed.

Lemma in_edges : forall e, In e (directed_edges (ring_triangles n m)) <-> exists k i j, i < n /\ j < m /\ e = arrow k i j.
Proof.
  intros e. split.
  - intros H. apply (Permutation_in _ edges_of_ring) in H. apply in_flat_map in H. destruct H as (j & J & H).
    apply in_flat_map in H. destruct H as (i & I & H). apply in_seq in I, J. apply in_map_iff in H. destruct H as (k & <- & _).
    exists k, i, j. split; [lia|]. split; [lia | reflexivity].
  - intros (k & i & j & I & J & ->). apply (Permutation_in _ (Permutation_sym edges_of_ring)).
    apply in_flat_map. exists j. split; [apply in_seq; lia|]. apply in_flat_map. exists i. split; [apply in_seq; lia|].
    unfold arrows. apply (in_map (fun k => arrow k i j)). destruct k; cbn; auto 10.
Qed.

Lemma num_inj : forall p q, fst p < n -> fst q < n -> num p = num q -> p = q.
Proof. intros [i j] [i' j'] A B E. unfold num in E. cbn in *. destruct (at_inj _ _ _ _ A B E). subst. reflexivity. Qed.

Lemma tail_lt : forall k i j, i < n -> fst (tail k i j) < n.
Proof. intros k i j H. destruct k; cbn; try exact H; apply next_lt, H. Qed.
Lemma head_lt : forall k i j, i < n -> fst (head k i j) < n.
Proof. intros k i j H. destruct k; cbn; try exact H; apply next_lt, H. Qed.

Lemma arrow_inj : forall k i j k' i' j', i < n -> i' < n -> arrow k i j = arrow k' i' j' -> k = k' /\ i = i' /\ j = j'.
Proof.
  intros k i j k' i' j' I I' E. unfold arrow in E. injection E as E1 E2.
  apply num_inj in E1; [|apply tail_lt; assumption|apply tail_lt; assumption].
  apply num_inj in E2; [|apply head_lt; assumption|apply head_lt; assumption].
  destruct k, k'; cbn in E1, E2; injection E1 as A B; injection E2 as C D; unfold next in *;
    destruct (Nat.eqb_spec i (n - 1)); destruct (Nat.eqb_spec i' (n - 1)); try lia; repeat split; lia.
Qed.

Lemma edges_NoDup : NoDup (directed_edges (ring_triangles n m)).
Proof.
  apply (Permutation_NoDup (Permutation_sym edges_of_ring)).
  assert (AI : forall i j b, In b (arrows i j) -> exists k, b = arrow k i j).
  { intros i j b Hb. apply in_map_iff in Hb. destruct Hb as (k & E & _). exists k. symmetry. exact E. }
  apply NoDup_flat_map; [apply seq_NoDup | |].
  - intros j J. apply NoDup_flat_map; [apply seq_NoDup | |].
    + intros i I. apply in_seq in I. unfold arrows. apply NoDup_map_inj.
      * intros x y _ _ E. apply arrow_inj in E; [tauto | lia | lia].
      * repeat constructor; cbn; intuition discriminate.
    + intros x y b X Y Bx By. apply in_seq in X, Y. apply AI in Bx, By. destruct Bx as [k Bx], By as [k' By].
      rewrite Bx in By. apply arrow_inj in By; [tauto | lia | lia].
  - intros x y b X Y Bx By. apply in_flat_map in Bx, By. destruct Bx as (i & I & Bx), By as (i' & I' & By).
    apply in_seq in I, I'. apply AI in Bx, By. destruct Bx as [k Bx], By as [k' By].
    rewrite Bx in By. apply arrow_inj in By; [tauto | lia | lia].
Qed.

(** The reverse of an edge. *)
Definition flip (e : nat * nat) : nat * nat := (snd e, fst e).

Lemma arrow_flip : forall k i j, i < n -> j < m ->
  match k with
  | KA => flip (arrow KA i j) = arrow KE (prev n i) j
  | KB => flip (arrow KB i j) = arrow KF i j
  | KC => flip (arrow KC i (j + 1)) = arrow KD i j
  | KD => flip (arrow KD i j) = arrow KC i (j + 1)
  | KE => flip (arrow KE i j) = arrow KA (next n i) j
  | KF => flip (arrow KF i j) = arrow KB i j
  end.
Proof.
  intros k i j I J. destruct k; unfold arrow, flip; cbn [tail head fst snd]; rewrite ?(next_prev i I); reflexivity.
Qed.

(** The kind of an edge whose reverse is an edge again. *)
Lemma flip_in : forall k i j, i < n -> j < m ->
  (In (flip (arrow k i j)) (directed_edges (ring_triangles n m)) <-> ~ ((k = KC /\ j = 0) \/ (k = KD /\ j = m - 1))).
Proof.
  intros k i j I J. rewrite in_edges. split.
  - intros (k' & i' & j' & I' & J' & E) C. unfold flip, arrow in E. cbn [fst snd] in E. injection E as E1 E2.
    apply num_inj in E1; [|apply head_lt; assumption|apply tail_lt; assumption].
    apply num_inj in E2; [|apply tail_lt; assumption|apply head_lt; assumption].
    destruct C as [[-> ->]|[-> ->]]; destruct k'; cbn in E1, E2; injection E1 as A B; injection E2 as C D; unfold next in *;
      destruct (Nat.eqb_spec i (n - 1)); destruct (Nat.eqb_spec i' (n - 1)); lia.
  - intros C. destruct k.
    + exists KE, (prev n i), j. split; [apply prev_lt, I|]. split; [exact J|]. apply (arrow_flip KA i j I J).
    + exists KF, i, j. split; [exact I|]. split; [exact J|]. apply (arrow_flip KB i j I J).
    + assert (j <> 0) by (intros ->; apply C; left; split; reflexivity). exists KD, i, (j - 1). split; [exact I|]. split; [lia|].
      rewrite <- (arrow_flip KC i (j - 1) I ltac:(lia)). replace (j - 1 + 1) with j by lia. reflexivity.
    + assert (j <> m - 1) by (intros ->; apply C; right; split; reflexivity). exists KC, i, (j + 1). split; [exact I|]. split; [lia|].
      apply (arrow_flip KD i j I J).
    + exists KA, (next n i), j. split; [apply next_lt, I|]. split; [exact J|]. apply (arrow_flip KE i j I J).
    + exists KB, i, j. split; [exact I|]. split; [exact J|]. apply (arrow_flip KF i j I J).
Qed.

(** Boundary segments. *)
Lemma in_inner : forall s, In s (inner_segments n) <-> exists i, i < n /\ s = ((i, next n i), 1).
Proof.
  intros s. unfold inner_segments. rewrite in_app_iff, in_map_iff. split.
  - intros [(i & <- & I)|[<-|[]]].
    + apply in_seq in I. exists i. split; [lia|]. unfold next. destruct (Nat.eqb_spec i (n - 1)); [lia | reflexivity].
    + exists (n - 1). split; [lia|]. unfold next. rewrite Nat.eqb_refl. reflexivity.
  - intros (i & I & ->). unfold next. destruct (Nat.eqb_spec i (n - 1)) as [->|D].
    + right. left. reflexivity.
    + left. exists i. split; [reflexivity | apply in_seq; lia].
Qed.

Lemma inner_as_map : inner_segments n = map (fun i => ((i, next n i), 1)) (seq 0 n).
Proof.
  unfold inner_segments. replace (seq 0 n) with (seq 0 (n - 1) ++ [n - 1]).
  2:{ change [n - 1] with (seq (0 + (n - 1)) 1). rewrite <- seq_app. f_equal. lia. }
  rewrite map_app. f_equal.
  - apply map_ext_in. intros i I. apply in_seq in I. unfold next. destruct (Nat.eqb_spec i (n - 1)); [lia | reflexivity].
  - cbn. unfold next. rewrite Nat.eqb_refl. reflexivity.
Qed.

Hypothesis H4 : n mod 4 = 0.
Hypothesis H2 : m mod 2 = 0.
Hypothesis Hm : m <= n / 2.
Hypothesis Hm0 : 0 < m.

(** Label and direction of an outer boundary element by its number. *)
Definition outer_label (i : nat) : nat := if (i <? offset n m) then 3 else if i <? n / 2 + offset n m then 2 else 3.
Definition outer_segment (i : nat) : (nat * nat) * nat :=
  ((if i =? n - 1 then (m * n, n - 1 + m * n) else (i + m * n, i + m * n + 1)), outer_label i).

Lemma offset_bound : n / 2 + offset n m < n - 1 /\ n = 4 * (n / 4) /\ n / 2 = 2 * (n / 4) /\ m = 2 * (m / 2) /\ offset n m + m / 2 = n / 4.
Proof.
  assert (A := Nat.div_mod n 4 ltac:(lia)). assert (B := Nat.div_mod m 2 ltac:(lia)). rewrite H4 in A. rewrite H2 in B.
  assert (C : n / 2 = 2 * (n / 4)). { rewrite A at 1. replace (4 * (n / 4) + 0) with (2 * (n / 4) * 2) by lia. apply Nat.div_mul. lia. }
  unfold offset. lia.
Qed.

Lemma outer_as_map : outer_segments n m = map outer_segment (seq 0 n).
Proof.
  destruct offset_bound as (A & B & C & D & E). unfold outer_segments. cbn zeta. unfold range.
  set (o := offset n m) in *.
  replace (seq 0 n) with (seq 0 (o - 0) ++ seq o (n / 2 + o - o) ++ seq (n / 2 + o) (n - 1 - (n / 2 + o)) ++ [n - 1]).
  2:{ change [n - 1] with (seq (n - 1) 1).
      replace (seq (n - 1) 1) with (seq (n / 2 + o + (n - 1 - (n / 2 + o))) 1) by (f_equal; lia). rewrite <- seq_app.
      replace (seq (n / 2 + o) (n - 1 - (n / 2 + o) + 1)) with (seq (o + (n / 2 + o - o)) (n - 1 - (n / 2 + o) + 1)) by (f_equal; lia).
      rewrite <- seq_app.
      match goal with |- context [seq o ?k] => replace (seq o k) with (seq (0 + (o - 0)) k) by (f_equal; lia) end.
      rewrite <- seq_app. f_equal. lia. }
  rewrite !map_app. f_equal; [|f_equal; [|f_equal]].
  - apply map_ext_in. intros i I. apply in_seq in I. unfold outer_segment, outer_label. fold o.
    destruct (Nat.eqb_spec i (n - 1)); [lia|]. destruct (Nat.ltb_spec i o); [reflexivity | lia].
  - apply map_ext_in. intros i I. apply in_seq in I. unfold outer_segment, outer_label. fold o.
    destruct (Nat.eqb_spec i (n - 1)); [lia|]. destruct (Nat.ltb_spec i o); [lia|]. destruct (Nat.ltb_spec i (n / 2 + o)); [reflexivity | lia].
  - apply map_ext_in. intros i I. apply in_seq in I. unfold outer_segment, outer_label. fold o.
    destruct (Nat.eqb_spec i (n - 1)); [lia|]. destruct (Nat.ltb_spec i o); [lia|]. destruct (Nat.ltb_spec i (n / 2 + o)); [lia | reflexivity].
  - cbn. unfold outer_segment, outer_label. fold o. rewrite Nat.eqb_refl. destruct (Nat.ltb_spec (n - 1) o); [reflexivity|].
    destruct (Nat.ltb_spec (n - 1) (n / 2 + o)); [lia | reflexivity].
Qed.

Lemma outer_ends : forall i, i < n -> fst (outer_segment i) = (i + m * n, next n i + m * n) \/ fst (outer_segment i) = (next n i + m * n, i + m * n).
Proof.
  intros i I. unfold outer_segment, next. destruct (Nat.eqb_spec i (n - 1)) as [->|D]; cbn [fst].
  - right. reflexivity.
  - left. f_equal; lia.
Qed.

(** The segments of the boundary, inner ones first. *)
Definition boundary : list ((nat * nat) * nat) := inner_segments n ++ outer_segments n m.

Lemma inner_joins : forall i u v, i < n -> joins ((i, next n i), 1) u v -> u < n /\ v < n.
Proof. intros i u v I [E|E]; cbn in E; injection E as <- <-; split; try exact I; apply next_lt, I. Qed.
Lemma outer_joins : forall i u v, i < n -> joins (outer_segment i) u v -> exists u' v', u' < n /\ v' < n /\ u = u' + m * n /\ v = v' + m * n.
Proof.
  intros i u v I J. assert (X := next_lt i I). destruct J as [E|E]; destruct (outer_ends i I) as [F|F]; rewrite F in E; injection E as <- <-;
    [exists i, (next n i) | exists (next n i), i | exists (next n i), i | exists i, (next n i)]; auto.
Qed.

(** A boundary edge of the triangulation is joined by a boundary segment, an inner edge is not. *)
Lemma segment_of_edge : forall k i j, i < n -> j < m ->
  ((exists s, In s boundary /\ joins s (fst (arrow k i j)) (snd (arrow k i j))) <-> (k = KC /\ j = 0) \/ (k = KD /\ j = m - 1)).
Proof.
  intros k i j I J. split.
  - intros (s & S & E). unfold boundary in S. apply in_app_iff in S. unfold arrow in E. cbn [fst snd] in E.
    assert (T := tail_lt k i j I). assert (H := head_lt k i j I). destruct S as [S|S].
    + apply in_inner in S. destruct S as (i' & I' & ->). assert (N := next_lt i' I').
      assert (Q : (tail k i j = (i', 0) /\ head k i j = (next n i', 0)) \/ (head k i j = (i', 0) /\ tail k i j = (next n i', 0))).
      { destruct E as [E|E]; cbn [fst] in E; injection E as A B; [left|right]; split; apply num_inj; cbn [fst]; try assumption; unfold num at 2; cbn [fst snd]; lia. }
      left. destruct Q as [[A B]|[A B]]; destruct k; cbn in A, B; injection A as A1 A2; injection B as B1 B2; try lia; try (split; [reflexivity | assumption]).
    + rewrite outer_as_map in S. apply in_map_iff in S. destruct S as (i' & <- & I'). apply in_seq in I'. assert (I'' : i' < n) by lia. clear I'.
      assert (N := next_lt i' I'').
      assert (Q : (tail k i j = (i', m) /\ head k i j = (next n i', m)) \/ (head k i j = (i', m) /\ tail k i j = (next n i', m))).
      { destruct E as [E|E]; destruct (outer_ends i' I'') as [F|F]; rewrite F in E; injection E as A B;
          [left|right|right|left]; split; apply num_inj; cbn [fst]; try assumption; unfold num at 2; cbn [fst snd]; lia. }
      right. destruct Q as [[A B]|[A B]]; destruct k; cbn in A, B; injection A as A1 A2; injection B as B1 B2; try lia; try (split; [reflexivity | lia]).
  - intros [[-> ->]|[-> ->]].
    + exists ((i, next n i), 1). split; [apply in_app_iff; left; apply in_inner; exists i; auto|]. right. unfold arrow, num. cbn. f_equal; lia.
    + exists (outer_segment i). split.
      * apply in_app_iff. right. rewrite outer_as_map. apply in_map. apply in_seq. lia.
      * unfold arrow, num. cbn [tail head fst snd]. replace (m - 1 + 1) with m by lia. destruct (outer_ends i I) as [F|F]; [left|right]; exact F.
Qed.

(** At most one segment joins two points. *)
Lemma segments_unique : forall u v, length (filter (fun s => let '((a, b), _) := s in (a =? u) && (b =? v) || (a =? v) && (b =? u)) boundary) <= 1.
Proof.
  intros u v. set (f := fun s : (nat * nat) * nat => _).
  assert (Fj : forall s, f s = true <-> joins s u v).
  { intros [[a b] l]. unfold f, joins. cbn [fst]. rewrite orb_true_iff, !andb_true_iff, !Nat.eqb_eq.
    split; [intros [[-> ->]|[-> ->]]; auto | intros [E|E]; injection E as -> ->; auto]. }
  assert (U : forall A (g : A -> (nat * nat) * nat) l, NoDup l -> (forall x y, In x l -> In y l -> joins (g x) u v -> joins (g y) u v -> x = y) -> length (filter f (map g l)) <= 1).
  { intros A g l N Q. induction l as [|x l IH]; [cbn; lia|]. inversion N as [|? ? Nx Nl]; subst. cbn [map filter].
    destruct (f (g x)) eqn:E.
    - apply Fj in E. assert (Z : filter f (map g l) = []).
      { destruct (filter f (map g l)) as [|s r] eqn:R; [reflexivity|]. exfalso.
        assert (In s (filter f (map g l))) as Is by (rewrite R; left; reflexivity). apply filter_In in Is. destruct Is as [Is Fs].
        apply in_map_iff in Is. destruct Is as (y & <- & Iy). apply Fj in Fs.
        assert (x = y) by (apply Q; [left; reflexivity | right; exact Iy | exact E | exact Fs]). subst. contradiction. }
      rewrite Z. cbn. lia.
    - apply IH; [exact Nl | intros a b Ha Hb; apply Q; right; assumption]. }
  unfold boundary. rewrite filter_app, app_length. rewrite inner_as_map, outer_as_map.
  assert (NJ : forall i i', i < n -> i' < n -> next n i = i' -> next n i' = i -> False).
  { intros i i' I I' A B. unfold next in *. destruct (Nat.eqb_spec i (n - 1)); destruct (Nat.eqb_spec i' (n - 1)); lia. }
  assert (NI : forall i i', i < n -> i' < n -> next n i = next n i' -> i = i').
  { intros i i' I I' A. unfold next in *. destruct (Nat.eqb_spec i (n - 1)); destruct (Nat.eqb_spec i' (n - 1)); lia. }
  assert (A : length (filter f (map (fun i => ((i, next n i), 1)) (seq 0 n))) <= 1).
  { apply U; [apply seq_NoDup|]. intros x y X Y Jx Jy. apply in_seq in X, Y. assert (Xn : x < n) by lia. assert (Yn : y < n) by lia.
    destruct (Nat.eq_dec x y) as [|Ne]; [assumption|]. exfalso.
    destruct Jx as [Jx|Jx], Jy as [Jy|Jy]; cbn in Jx, Jy; injection Jx as ? ?; injection Jy as ? ?; try lia; apply (NJ x y Xn Yn); lia. }
  assert (B : length (filter f (map outer_segment (seq 0 n))) <= 1).
  { apply U; [apply seq_NoDup|]. intros x y X Y Jx Jy. apply in_seq in X, Y. assert (Xn : x < n) by lia. assert (Yn : y < n) by lia.
    destruct (Nat.eq_dec x y) as [|Ne]; [assumption|]. exfalso.
    assert (P : (u = x + m * n /\ v = next n x + m * n) \/ (v = x + m * n /\ u = next n x + m * n)).
    { destruct Jx as [Jx|Jx]; destruct (outer_ends x Xn) as [F|F]; rewrite F in Jx; injection Jx as ? ?; auto. }
    assert (Q : (u = y + m * n /\ v = next n y + m * n) \/ (v = y + m * n /\ u = next n y + m * n)).
    { destruct Jy as [Jy|Jy]; destruct (outer_ends y Yn) as [F|F]; rewrite F in Jy; injection Jy as ? ?; auto. }
    destruct P as [[P1 P2]|[P1 P2]], Q as [[Q1 Q2]|[Q1 Q2]]; try lia; apply (NJ x y Xn Yn); lia. }
  destruct (filter f (map (fun i => ((i, next n i), 1)) (seq 0 n))) as [|s r] eqn:E1; [cbn; exact B|].
  destruct (filter f (map outer_segment (seq 0 n))) as [|s' r'] eqn:E2; [rewrite Nat.add_0_r; exact A|]. exfalso.
  assert (In s (filter f (map (fun i => ((i, next n i), 1)) (seq 0 n)))) as I1 by (rewrite E1; left; reflexivity).
  assert (In s' (filter f (map outer_segment (seq 0 n)))) as I2 by (rewrite E2; left; reflexivity).
  apply filter_In in I1, I2. destruct I1 as [I1 F1], I2 as [I2 F2]. apply Fj in F1, F2.
  apply in_map_iff in I1, I2. destruct I1 as (i & <- & I1), I2 as (i' & <- & I2). apply in_seq in I1, I2.
  apply inner_joins in F1; [|lia]. apply outer_joins in F2; [|lia]. destruct F2 as (u' & v' & _ & _ & -> & _). nia.
Qed.

Lemma labels : labelled 1 boundary = n /\ labelled 2 boundary = n / 2 /\ labelled 3 boundary = n / 2.
Proof.
  destruct offset_bound as (A & B & C & D & E).
  assert (M : forall k c l, labelled k (map (fun i => ((i, next n i), c)) l) = if c =? k then length l else 0).
  { intros k c l. unfold labelled. induction l as [|i l IH]; [cbn; destruct (c =? k); reflexivity|]. cbn [map filter snd]. destruct (c =? k); cbn [length]; [f_equal|]; exact IH. }
  assert (M' : forall A (g : A -> nat * nat) k c l, labelled k (map (fun i => (g i, c)) l) = if c =? k then length l else 0).
  { intros T g k c l. unfold labelled. induction l as [|i l IH]; [cbn; destruct (c =? k); reflexivity|]. cbn [map filter snd]. destruct (c =? k); cbn [length]; [f_equal|]; exact IH. }
  assert (L : forall k a b, labelled k (a ++ b) = labelled k a + labelled k b).
  { intros k a b. unfold labelled. rewrite filter_app, app_length. reflexivity. }
  unfold boundary, outer_segments. cbn zeta. rewrite inner_as_map. unfold range.
  assert (M1 : forall k (e : nat * nat) c, labelled k [(e, c)] = if c =? k then 1 else 0).
  { intros k e c. unfold labelled. cbn [filter snd]. destruct (c =? k); reflexivity. }
  split; [|split]; rewrite !L, M, !M', M1; cbn [Nat.eqb]; rewrite ?seq_length; lia.
Qed.
End Ring.
