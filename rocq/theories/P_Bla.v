(** Property C40 (pointwise algebra) and the fixpoint iteration. *)
From Coq Require Import Reals List Bool Arith Lia Lra.
From Verif Require Import Base M_Bla.
Import ListNotations.
Open Scope R_scope.

(** Value of a scalar argument. *)
Definition value (x : scalar) : option R := match x with SCf v | SNum v => Some v | SOther => None end.

Theorem c40_abs : forall x v, value x = Some v -> exists y, bla_abs x = Ok y /\ value y = Some (Rabs v).
Proof.
  intros [a|a|] v E; try discriminate; injection E as <-; eexists; split; try reflexivity. cbn. unfold ifpos. f_equal.
  destruct (Rlt_dec 0 a); [rewrite Rabs_right | rewrite Rabs_left1]; lra.
Qed.
Print Assumptions c40_abs.

Theorem c40_max : forall x y a b, value x = Some a -> value y = Some b -> exists z, bla_max x y = Ok z /\ value z = Some (Rmax a b).
Proof.
  intros [a|a|] [b|b|] v w E F; try discriminate; injection E as <-; injection F as <-; eexists; split; try reflexivity; cbn; unfold ifpos; f_equal;
    (destruct (Rlt_dec 0 (a - b)); [rewrite Rmax_left | rewrite Rmax_right]; lra).
Qed.
Print Assumptions c40_max.

Theorem c40_min : forall x y a b, value x = Some a -> value y = Some b -> exists z, bla_min x y = Ok z /\ value z = Some (Rmin a b).
Proof.
  intros [a|a|] [b|b|] v w E F; try discriminate; injection E as <-; injection F as <-; eexists; split; try reflexivity; cbn; unfold ifpos; f_equal;
    (destruct (Rlt_dec 0 (a - b)); [rewrite Rmin_right | rewrite Rmin_left]; lra).
Qed.
Print Assumptions c40_min.

(** The value is moved into the interval and stays if it lies there. *)
Theorem c40_interval : forall x s e v a b, value x = Some v -> value s = Some a -> value e = Some b -> a <= b ->
  exists z w, bla_interval x s e = Ok z /\ value z = Some w /\ a <= w <= b /\
    (v <= a -> w = a) /\ (a <= v <= b -> w = v) /\ (b <= v -> w = b).
Proof.
  intros x s e v a b X S E L. unfold bla_interval. destruct (c40_max x s v a X S) as (y & Y & Vy). rewrite Y. cbn [bind].
  destruct (c40_min y e _ b Vy E) as (z & Z & Vz). exists z, (Rmin (Rmax v a) b). split; [exact Z|]. split; [exact Vz|].
  unfold Rmin, Rmax. destruct (Rle_dec v a); destruct (Rle_dec _ b); repeat split; lra.
Qed.
Print Assumptions c40_interval.

(** Arguments that are neither coefficient functions nor numbers raise. *)
Theorem c40_other_raises : forall x, bla_abs SOther = Err NotImplementedError /\
  (exists e, bla_max SOther x = Err e) /\ (exists e, bla_max x SOther = Err e) /\ (exists e, bla_min SOther x = Err e) /\ (exists e, bla_min x SOther = Err e).
Proof. intros [a|a|]; repeat split; eexists; reflexivity. Qed.
Print Assumptions c40_other_raises.

(** A number or coefficient function becomes a coefficient function of the same value; anything else raises. *)
Theorem c40_as_scalar : (forall x v, value x = Some v -> as_scalar x = Ok (SCf v)) /\ as_scalar SOther = Err NotImplementedError.
Proof. split; [|reflexivity]. intros [a|a|] v E; try discriminate; injection E as <-; reflexivity. Qed.
Print Assumptions c40_as_scalar.

(** ** Matrices *)

Lemma set_entry_length : forall l k v, length (set_entry l k v) = length l.
Proof. induction l as [|x l IH]; intros [|k] v; cbn; try reflexivity. rewrite IH. reflexivity. Qed.

Lemma nth_set_entry : forall l k v i, (k < length l)%nat -> nth i (set_entry l k v) 0 = if (i =? k)%nat then v else nth i l 0.
Proof.
  induction l as [|x l IH]; intros k v i K; [cbn in K; lia|]. destruct k as [|k], i as [|i]; cbn; try reflexivity.
  apply IH. cbn in K. lia.
Qed.

Theorem c40_diagonal : forall x i j, (i < length x)%nat -> (j < length x)%nat ->
  rows (diagonal x) = length x /\ cols (diagonal x) = length x /\
  entry (diagonal x) i j = if (i =? j)%nat then nth i x 0 else 0.
Proof.
  intros x i j I J. split; [reflexivity|]. split; [reflexivity|]. unfold entry, diagonal. cbn [cols entries]. set (d := length x) in *.
  assert (G : forall k l0, length l0 = (d * d)%nat -> (k <= d)%nat ->
    let l := fold_left (fun mat q => set_entry mat ((d + 1) * q) (nth q x 0)) (seq 0 k) l0 in
    length l = (d * d)%nat /\ nth (i * d + j) l 0 = if ((i =? j)%nat && (i <? k)%nat)%bool then nth i x 0 else nth (i * d + j) l0 0).
  { induction k as [|k IH]; intros l0 L0 K.
    - cbn. rewrite andb_false_r. auto.
    - cbn zeta. rewrite seq_S, fold_left_app. cbn [fold_left Nat.add]. destruct (IH l0 L0 ltac:(lia)) as [A B].
      set (l := fold_left _ (seq 0 k) l0) in *. split; [rewrite set_entry_length; exact A|].
      rewrite nth_set_entry by (rewrite A; nia). rewrite B. destruct (Nat.eqb_spec (i * d + j) ((d + 1) * k)) as [E|E].
      + assert (i = k /\ j = k) as [-> ->]. { destruct (Nat.lt_trichotomy i k) as [Q|[Q|Q]]; [|split; [exact Q | subst; lia]|]; exfalso; nia. }
        rewrite Nat.eqb_refl. destruct (Nat.ltb_spec k (S k)); [reflexivity | lia].
      + destruct (Nat.eqb_spec i j) as [->|D]; [|reflexivity]. cbn [andb]. destruct (Nat.ltb_spec j k), (Nat.ltb_spec j (S k)); try reflexivity; try lia.
        exfalso. apply E. assert (j = k) by lia. subst. lia. }
  destruct (G d (repeat 0 (d * d)) (repeat_length _ _) (Nat.le_refl _)) as [_ B]. cbn zeta in B. rewrite B.
  destruct (Nat.ltb_spec i d); [|lia]. rewrite andb_true_r. destruct (i =? j)%nat; [reflexivity|]. apply nth_repeat.
Qed.
Print Assumptions c40_diagonal.

(** The trace of a diagonal matrix is the sum of the entries; rectangular matrices raise. *)
Theorem c40_trace : forall m, (rows m = cols m -> trace m = Ok (fold_left Rplus (map (fun i => entry m i i) (seq 0 (rows m))) 0)) /\
  (rows m <> cols m -> trace m = Err ValueError).
Proof. intros m. unfold trace. destruct (Nat.eqb_spec (rows m) (cols m)); split; intros; try reflexivity; contradiction. Qed.
Print Assumptions c40_trace.

Theorem c40_trace_diagonal : forall x, trace (diagonal x) = Ok (fold_left Rplus x 0).
Proof.
  intros x. destruct (c40_trace (diagonal x)) as [T _]. rewrite T by reflexivity. f_equal. f_equal. change (rows (diagonal x)) with (length x).
  transitivity (map (fun i => nth i x 0) (seq 0 (length x))).
  - apply map_ext_in. intros i I. apply in_seq in I. destruct (c40_diagonal x i i ltac:(lia) ltac:(lia)) as (_ & _ & E). rewrite E, Nat.eqb_refl. reflexivity.
  - clear. induction x as [|a x IH]; [reflexivity|]. cbn [length seq map nth]. f_equal. rewrite <- seq_shift, map_map. exact IH.
Qed.
Print Assumptions c40_trace_diagonal.

(** A square matrix is inferred exactly from a square number of entries. *)
Theorem c40_as_matrix : forall x, (forall k, length x = (k * k)%nat -> as_matrix x = Ok (mk_matrix k k x)) /\
  ((forall k, length x <> (k * k)%nat) -> as_matrix x = Err ValueError).
Proof.
  intros x. unfold as_matrix. split.
  - intros k E. rewrite E, Nat.sqrt_square, Nat.eqb_refl. reflexivity.
  - intros N. destruct (Nat.eqb_spec (Nat.sqrt (length x) * Nat.sqrt (length x)) (length x)) as [E|E]; [|reflexivity]. exfalso. apply (N _ (eq_sym E)).
Qed.
Print Assumptions c40_as_matrix.

Lemma entry_scale : forall f m i j, entry (scale f m) i j = f * entry m i j.
Proof. intros. unfold entry, scale. cbn [cols entries]. rewrite <- (Rmult_0_r f) at 1. apply map_nth. Qed.

(** The builder accepts 3 or 6 components, the result is symmetric, and its upper triangle lists the components in order. *)
Theorem c40_symmetric : forall x f, (length x = 3%nat \/ length x = 6%nat) -> exists m d, symmetric_matrix x f = Ok m /\ rows m = d /\ cols m = d /\
  (forall i j, (i < d)%nat -> (j < d)%nat -> entry m i j = entry m j i) /\
  flat_map (fun i => map (fun j => entry m i j) (seq i (d - i))) (seq 0 d) = map (Rmult f) x.
Proof.
  intros x f H.
  assert (Q : (exists a b c, x = [a; b; c]) \/ (exists a b c d e g, x = [a; b; c; d; e; g])).
  { destruct x as [|a [|b [|c [|d [|e [|g [|h x]]]]]]]; cbn in H; try (exfalso; lia); [left | right]; repeat eexists. }
  destruct Q as [(a & b & c & ->)|(a & b & c & d & e & g & ->)].
  - eexists. exists 2%nat. split; [reflexivity|]. split; [reflexivity|]. split; [reflexivity|]. split; [|reflexivity].
    intros i j I J. destruct i as [|[|i]], j as [|[|j]]; try lia; reflexivity.
  - eexists. exists 3%nat. split; [reflexivity|]. split; [reflexivity|]. split; [reflexivity|]. split; [|reflexivity].
    intros i j I J. destruct i as [|[|[|i]]], j as [|[|[|j]]]; try lia; reflexivity.
Qed.
Print Assumptions c40_symmetric.

Theorem c40_symmetric_raises : forall x f, length x <> 3%nat -> length x <> 6%nat -> symmetric_matrix x f = Err ValueError.
Proof. intros x f A B. destruct x as [|a [|b [|c [|d [|e [|g [|h x]]]]]]]; cbn in A, B; try reflexivity; lia. Qed.
Print Assumptions c40_symmetric_raises.

(** Skew-symmetric matrices. Applied to a vector, the three-dimensional one is the cross product with
    (c, b, a): the components are stored in the order xy, xz, yz with alternating signs. *)
Theorem c40_skew : forall f,
  (forall a, exists m, skew_matrix (CScalar a) f = Ok m /\ rows m = 2%nat /\ cols m = 2%nat /\
    (forall i j, (i < 2)%nat -> (j < 2)%nat -> entry m i j = - entry m j i) /\ entry m 1 0 = f * a) /\
  (forall a b c, exists m, skew_matrix (CVector [a; b; c]) f = Ok m /\ rows m = 3%nat /\ cols m = 3%nat /\
    (forall i j, (i < 3)%nat -> (j < 3)%nat -> entry m i j = - entry m j i) /\
    entry m 1 0 = f * a /\ entry m 0 2 = f * b /\ entry m 2 1 = f * c) /\
  (forall x, length x <> 3%nat -> skew_matrix (CVector x) f = Err ValueError).
Proof.
  intros f. split; [|split].
  - intros a. eexists. split; [reflexivity|]. split; [reflexivity|]. split; [reflexivity|]. split; [|reflexivity].
    intros i j I J. destruct i as [|[|i]], j as [|[|j]]; try lia; cbn; ring.
  - intros a b c. eexists. split; [reflexivity|]. split; [reflexivity|]. split; [reflexivity|]. split; [|auto].
    intros i j I J. destruct i as [|[|[|i]]], j as [|[|[|j]]]; try lia; cbn; ring.
  - intros x L. destruct x as [|a [|b [|c [|d x]]]]; cbn in L; try reflexivity. lia.
Qed.
Print Assumptions c40_skew.

Lemma inner_pos : forall x, 0 <= inner x x.
Proof. induction x as [|a x IH]; cbn; [lra | nra]. Qed.

(** Unit vectors have length one and keep the direction. *)
Theorem c40_unit_vector : forall x, inner x x <> 0 ->
  inner (unit_vector x) (unit_vector x) = 1 /\ length (unit_vector x) = length x /\
  (forall i, nth i x 0 = sqrt (inner x x) * nth i (unit_vector x) 0) /\ 0 < sqrt (inner x x).
Proof.
  intros x N. assert (P := inner_pos x). assert (S : 0 < sqrt (inner x x)) by (apply sqrt_lt_R0; lra).
  split; [|split; [unfold unit_vector; apply map_length | split; [|exact S]]].
  - assert (E : forall s y, s <> 0 -> inner (map (fun a => a / s) y) (map (fun a => a / s) y) = inner y y / (s * s)).
    { intros s y Hs. induction y as [|a y IH]; cbn; [field; exact Hs|]. rewrite IH. field. exact Hs. }
    unfold unit_vector. rewrite E by lra. rewrite sqrt_sqrt by exact P. field. exact N.
  - intros i. unfold unit_vector. set (s := sqrt (inner x x)) in *.
    replace (nth i (map (fun a => a / s) x) 0) with (nth i x 0 / s); [field; lra|].
    assert (Q : nth i (map (fun a => a / s) x) (0 / s) = nth i x 0 / s) by (apply (map_nth (fun a => a / s))).
    replace (0 / s) with 0 in Q by (unfold Rdiv; ring). symmetry. exact Q.
Qed.
Print Assumptions c40_unit_vector.

Theorem c40_outer : forall x y i j, (i < length x)%nat -> (j < length y)%nat -> entry (outer x y) i j = nth i x 0 * nth j y 0.
Proof.
  intros x y i j I J. unfold entry, outer. cbn [cols entries]. revert i I. induction x as [|a x IH]; intros i I; [cbn in I; lia|].
  cbn [flat_map]. destruct i as [|i].
  - rewrite app_nth1 by (rewrite map_length; lia). cbn [Nat.mul Nat.add nth]. rewrite <- (map_nth (Rmult a)). f_equal. ring.
  - rewrite app_nth2 by (rewrite map_length; lia). rewrite map_length. replace (S i * length y + j - length y)%nat with (i * length y + j)%nat by lia.
    cbn [nth]. apply IH. cbn in I. lia.
Qed.
Print Assumptions c40_outer.

(** The trace of an outer product is the inner product; it is zero exactly for orthogonal vectors. *)
Theorem c40_trace_outer : forall x y, (length x = length y -> trace (outer x y) = Ok (inner x y)) /\
  (length x <> length y -> trace (outer x y) = Err ValueError).
Proof.
  intros x y. destruct (c40_trace (outer x y)) as [T F]. split; [|exact F]. intros L. rewrite T by exact L. f_equal.
  change (rows (outer x y)) with (length x).
  rewrite (map_ext_in _ (fun i => nth i x 0 * nth i y 0)) by (intros i I; apply in_seq in I; apply c40_outer; lia).
  clear T F. assert (G : forall a, fold_left Rplus (map (fun i => nth i x 0 * nth i y 0) (seq 0 (length x))) a = a + inner x y).
  2:{ rewrite G. ring. }
  revert y L. induction x as [|u x IH]; intros [|v y] L a; cbn in L; try discriminate; [cbn; ring|].
  cbn [length seq map fold_left inner nth]. rewrite <- seq_shift, map_map. rewrite (IH y ltac:(lia)). ring.
Qed.
Print Assumptions c40_trace_outer.

(** ** Fixpoint iteration *)

(** The result is an iterate: the last one allowed, or the first one whose distance to its predecessor is below the
    tolerance. *)
Theorem c40_fixpoint : forall f it tol x0, exists n, (n <= it)%nat /\
  fixpoint_iteration x0 f it tol = Nat.iter n f x0 /\
  (forall k, (S k < n)%nat -> tol <= Rabs (Nat.iter (S k) f x0 - Nat.iter k f x0)) /\
  ((n = it /\ forall k, n = S k -> tol <= Rabs (Nat.iter (S k) f x0 - Nat.iter k f x0)) \/
   exists k, n = S k /\ Rabs (Nat.iter (S k) f x0 - Nat.iter k f x0) < tol).
Proof.
  intros f it tol. induction it as [|it IH]; intros x0.
  - exists 0%nat. split; [lia|]. split; [reflexivity|]. split; [intros; lia|]. left. split; [reflexivity | intros; lia].
  - cbn [fixpoint_iteration]. cbn zeta. destruct (Rlt_dec (Rabs (f x0 - x0)) tol) as [L|L].
    + exists 1%nat. split; [lia|]. split; [reflexivity|]. split; [intros; lia|]. right. exists 0%nat. split; [reflexivity | exact L].
    + destruct (IH (f x0)) as (n & N & E & B & C).
      assert (Sh : forall k, Nat.iter k f (f x0) = Nat.iter (S k) f x0).
      { induction k as [|k IHk]; [reflexivity|]. change (f (Nat.iter k f (f x0)) = f (Nat.iter (S k) f x0)). rewrite IHk. reflexivity. }
      exists (S n). split; [lia|]. split; [rewrite E; apply Sh|]. split.
      * intros k K. destruct k as [|k]; [cbn; lra|]. rewrite <- !Sh. apply B. lia.
      * destruct C as [[C D]|(k & C & D)].
        -- left. split; [lia|]. intros k K. destruct k as [|k]; [cbn; lra|]. rewrite <- !Sh. apply D. lia.
        -- right. exists (S k). split; [lia|]. rewrite <- !Sh. exact D.
Qed.
Print Assumptions c40_fixpoint.

Example c40_example : bla_interval (SCf 5) (SNum 0) (SNum 1) = Ok (SCf 1) /\
  entries (diagonal [2; 3]) = [2; 0; 0; 3] /\ symmetric_matrix [1; 2; 3; 4] 1 = Err ValueError.
Proof.
  split; [|split; reflexivity]. cbn. unfold ifpos. destruct (Rlt_dec 0 (5 - 0)); [|lra]. destruct (Rlt_dec 0 (5 - 1)); [|lra]. reflexivity.
Qed.
