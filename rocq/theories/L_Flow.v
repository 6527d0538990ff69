(** Lemmas about vectors, matrices and derivatives used for the flow equations. *)
From Coq Require Import Reals List Arith Lra Lia Bool.
From Coquelicot Require Import Coquelicot.
From Verif Require Import Base M_Bla M_Flow S_Flow.
Import ListNotations.
Open Scope R_scope.

(** ** Vectors *)

Lemma vadd_length x y : length (vadd x y) = Nat.min (length x) (length y).
Proof. revert y; induction x; intros [|b y]; cbn; auto. Qed.
Lemma vsub_length x y : length (vsub x y) = Nat.min (length x) (length y).
Proof. revert y; induction x; intros [|b y]; cbn; auto. Qed.
Lemma vscale_length f x : length (vscale f x) = length x.
Proof. apply map_length. Qed.
Lemma vdiv_length x f : length (vdiv x f) = length x.
Proof. apply map_length. Qed.

Lemma vadd_nth x y i : length x = length y -> nth i (vadd x y) 0 = nth i x 0 + nth i y 0.
Proof. revert y i; induction x as [|a x IH]; intros [|b y] [|i] E; try discriminate E; cbn; try lra. apply IH; now injection E. Qed.
Lemma vsub_nth x y i : length x = length y -> nth i (vsub x y) 0 = nth i x 0 - nth i y 0.
Proof. revert y i; induction x as [|a x IH]; intros [|b y] [|i] E; try discriminate E; cbn; try lra. apply IH; now injection E. Qed.
Lemma vscale_nth f x i : nth i (vscale f x) 0 = f * nth i x 0.
Proof. unfold vscale. replace 0 with (f * 0) at 1 by ring. apply map_nth. Qed.
Lemma vdiv_nth x f i : nth i (vdiv x f) 0 = nth i x 0 / f.
Proof. unfold vdiv. replace 0 with ((fun a => a / f) 0) at 1 by (cbn; unfold Rdiv; ring). apply (map_nth (fun a => a / f)). Qed.

(** ** Tables *)

Lemma flat_map_nth (f : nat -> nat -> R) m n i j : (i < n)%nat -> (j < m)%nat ->
  forall a, nth (i * m + j) (flat_map (fun i => map (f i) (seq 0 m)) (seq a n)) 0 = f (a + i)%nat j.
Proof.
  revert i; induction n as [|n IH]; intros i Hi Hj a; [lia|].
  cbn [seq flat_map]. destruct i as [|i].
  - cbn [Nat.mul Nat.add]. rewrite app_nth1 by (rewrite map_length, seq_length; exact Hj).
    rewrite (nth_indep _ 0 (f a 0%nat)) by (rewrite map_length, seq_length; exact Hj).
    rewrite (map_nth (f a)). rewrite seq_nth by exact Hj. rewrite Nat.add_0_r; reflexivity.
  - rewrite app_nth2 by (rewrite map_length, seq_length; nia). rewrite map_length, seq_length.
    replace (S i * m + j - m)%nat with (i * m + j)%nat by nia. rewrite IH by (lia || exact Hj).
    f_equal; lia.
Qed.

Lemma entry_tabulate n m f i j : (i < n)%nat -> (j < m)%nat -> entry (tabulate n m f) i j = f i j.
Proof. intros Hi Hj; unfold entry, tabulate; cbn [cols entries]. rewrite flat_map_nth by assumption. reflexivity. Qed.

Lemma tabulate_length n m f : length (entries (tabulate n m f)) = (n * m)%nat.
Proof.
  unfold tabulate; cbn [entries]. generalize 0%nat at 2. induction n as [|n IH]; intros a; cbn; [reflexivity|].
  rewrite app_length, map_length, seq_length, IH. reflexivity.
Qed.

Lemma entry_outer x y i j : (i < length x)%nat -> (j < length y)%nat -> entry (outer x y) i j = nth i x 0 * nth j y 0.
Proof.
  unfold entry, outer; cbn [cols entries]. revert i; induction x as [|a x IH]; intros i Hi Hj; cbn in Hi; [lia|].
  cbn [flat_map]. destruct i as [|i].
  - cbn [Nat.mul Nat.add nth]. rewrite app_nth1 by (rewrite map_length; exact Hj).
    replace 0 with (a * 0) at 1 by ring. apply (map_nth (fun b => a * b)).
  - rewrite app_nth2 by (rewrite map_length; nia). rewrite map_length.
    replace (S i * length y + j - length y)%nat with (i * length y + j)%nat by nia. cbn [nth]. apply IH; [lia|exact Hj].
Qed.

Lemma outer_length x y : length (entries (outer x y)) = (length x * length y)%nat.
Proof. unfold outer; cbn [entries]. induction x as [|a x IH]; cbn; [reflexivity|]. rewrite app_length, map_length, IH; reflexivity. Qed.

Lemma mvmul_nth a x i : (i < rows a)%nat -> nth i (mvmul a x) 0 = rsum (map (fun k => entry a i k * nth k x 0) (seq 0 (cols a))).
Proof.
  intros H; unfold mvmul. set (f := fun i : nat => rsum _).
  rewrite (nth_indep _ 0 (f 0%nat)) by (rewrite map_length, seq_length; exact H). rewrite (map_nth f). rewrite seq_nth by exact H. reflexivity.
Qed.

Lemma mvmul_length a x : length (mvmul a x) = rows a.
Proof. unfold mvmul; rewrite map_length, seq_length; reflexivity. Qed.

Lemma rsum_ext {A} (f h : A -> R) l : (forall a, In a l -> f a = h a) -> rsum (map f l) = rsum (map h l).
Proof. intros E; f_equal. apply map_ext_in. exact E. Qed.

Lemma inner_sum x y n : length x = n -> length y = n -> inner x y = rsum (map (fun k => nth k x 0 * nth k y 0) (seq 0 n)).
Proof.
  revert y n; induction x as [|a x IH]; intros [|b y] n Ex Ey; cbn in Ex, Ey; subst n; try discriminate Ey; [reflexivity|].
  cbn [inner seq map rsum fold_right nth]. f_equal. rewrite <- seq_shift, map_map. apply IH; [reflexivity|]. now injection Ey.
Qed.

(** ** Derivatives *)

Lemma is_derive_rsum (f : nat -> R -> R) (df : nat -> R) l x :
  (forall k, In k l -> is_derive (f k) x (df k)) -> is_derive (fun t => rsum (map (fun k => f k t) l)) x (rsum (map df l)).
Proof.
  induction l as [|k l IH]; intros H; cbn [map rsum fold_right].
  - apply (is_derive_const (V := R_NormedModule) 0).
  - apply (is_derive_plus (V := R_NormedModule) (f k)); [apply H; now left|]. apply IH; intros j Hj; apply H; now right.
Qed.

(** Derivative of a combination of two functions by the rules of calculus. *)
Lemma derive_values (f h : R -> R) x a b : is_derive f x a -> is_derive h x b -> ex_derive f x /\ ex_derive h x /\ Derive f x = a /\ Derive h x = b.
Proof. intros A B; repeat split; try (eexists; eassumption); now apply is_derive_unique. Qed.
