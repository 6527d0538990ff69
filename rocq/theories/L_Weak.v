(** Lemmas on weighted sums and on the forms with constant test functions. *)
From Coq Require Import Reals String List Arith Bool Lia Lra Permutation.
From Verif Require Import Base M_Bla M_Flow M_Formulation M_Weak S_Flow S_Chars S_Formulation S_Weak L_Flow L_Formulation.
Import ListNotations.
Open Scope R_scope.
Open Scope list_scope.

Definition got (r : result R) : R := match r with Ok a => a | Err _ => 0 end.

Lemma integral_ok q f v : integral q f = Ok v -> (forall w x, In (w, x) q -> exists a, f x = Ok a) /\ v = weighted q (fun x => got (f x)).
Proof.
  revert v. induction q as [|[w x] q IH]; intros v H; cbn [integral] in H.
  - injection H as <-. split; [intros ? ? []|reflexivity].
  - destruct (f x) as [a|] eqn:Ef; cbn [bind] in H; [|discriminate].
    destruct (integral q f) as [b|] eqn:Eq; cbn [bind] in H; [|discriminate]. injection H as <-.
    destruct (IH b eq_refl) as [Ha ->]. split.
    + intros w' x' [[= -> ->]|I]; [now exists a|eauto].
    + cbn [weighted]. now rewrite Ef.
Qed.

Lemma integral_make q f h : (forall w x, In (w, x) q -> f x = Ok (h x)) -> integral q f = Ok (weighted q h).
Proof.
  induction q as [|[w x] q IH]; intros H; [reflexivity|]. cbn [integral weighted].
  rewrite (H w x (or_introl eq_refl)), IH by (intros; apply (H w0); now right). reflexivity.
Qed.

Lemma integral_ext q f h : (forall x, f x = h x) -> integral q f = integral q h.
Proof. intros H. induction q as [|[w x] q IH]; [reflexivity|]. cbn [integral]. now rewrite H, IH. Qed.

Lemma weighted_ext q f h : (forall w x, In (w, x) q -> f x = h x) -> weighted q f = weighted q h.
Proof. induction q as [|[w x] q IH]; intros H; [reflexivity|]. cbn [weighted]. rewrite (H w x (or_introl eq_refl)), IH; [reflexivity|intros; apply (H w0); now right]. Qed.

Lemma weighted_plus q f h : weighted q (fun x => f x + h x) = weighted q f + weighted q h.
Proof. induction q as [|[w x] q IH]; cbn [weighted]; [lra|]. rewrite IH. lra. Qed.

Lemma weighted_scale q a f : weighted q (fun x => a * f x) = a * weighted q f.
Proof. induction q as [|[w x] q IH]; cbn [weighted]; [lra|]. rewrite IH. lra. Qed.

Lemma weighted_zero q f : (forall w x, In (w, x) q -> f x = 0) -> weighted q f = 0.
Proof. intros H. rewrite (weighted_ext q f (fun _ => 0 * 0)) by (intros w x I; rewrite (H w x I); ring). rewrite weighted_scale. ring. Qed.

Lemma weighted_select q (p : nat -> bool) f : weighted q (fun x => if p x then f x else 0) = weighted (at_points p q) f.
Proof.
  unfold at_points. induction q as [|[w x] q IH]; [reflexivity|]. cbn [weighted filter snd].
  destruct (p x); cbn [weighted]; rewrite IH; lra.
Qed.

Lemma weighted_split q p f : weighted q f = weighted (at_points p q) f + weighted (at_points (fun x => negb (p x)) q) f.
Proof.
  rewrite <- !weighted_select, <- weighted_plus. apply weighted_ext. intros w x _. destruct (p x); cbn [negb]; lra.
Qed.

Lemma at_points_all p q : (forall w x, In (w, x) q -> p x = true) -> at_points p q = q.
Proof.
  unfold at_points. induction q as [|[w x] q IH]; intros H; [reflexivity|]. cbn [filter snd]. rewrite (H w x (or_introl eq_refl)), IH; [reflexivity|].
  intros w' x' I. apply (H w'). now right.
Qed.

Lemma at_points_none p q : (forall w x, In (w, x) q -> p x = false) -> at_points p q = [].
Proof.
  unfold at_points. induction q as [|[w x] q IH]; intros H; [reflexivity|]. cbn [filter snd]. rewrite (H w x (or_introl eq_refl)), IH; [reflexivity|].
  intros w' x' I. apply (H w'). now right.
Qed.

Lemma at_points_ext p p' q : (forall x, p x = p' x) -> at_points p q = at_points p' q.
Proof. intros H. unfold at_points. apply filter_ext. intros [w x]. apply H. Qed.

Lemma in_at_points p q w x : In (w, x) (at_points p q) <-> In (w, x) q /\ p x = true.
Proof. unfold at_points. rewrite filter_In. reflexivity. Qed.

Lemma weighted_permutation q q' f : Permutation q q' -> weighted q f = weighted q' f.
Proof. induction 1 as [|[w x]|[w x] [w' x']|]; cbn [weighted]; lra. Qed.

Lemma weighted_map q g f : weighted (map (fun wx => (fst wx, g (snd wx))) q) f = weighted q (fun x => f (g x)).
Proof. induction q as [|[w x] q IH]; [reflexivity|]. cbn [map weighted fst snd]. now rewrite IH. Qed.

(** ** Constant test functions *)

Lemma basis_length n k : length (basis n k) = n.
Proof. unfold basis. now rewrite map_length, seq_length. Qed.

Lemma inner_zero f n : inner f (repeat 0 n) = 0.
Proof. revert n. induction f as [|a f IH]; intros [|n]; cbn [inner repeat]; try reflexivity. rewrite IH. ring. Qed.

Lemma delta_succ i j : delta (S i) (S j) = delta i j.
Proof. reflexivity. Qed.

Lemma basis_succ n k : basis (S n) (S k) = 0 :: basis n k.
Proof. unfold basis. cbn [seq map]. f_equal. rewrite <- seq_shift, map_map. apply map_ext. intros i. apply delta_succ. Qed.

Lemma basis_zero n : basis (S n) 0 = 1 :: repeat 0 n.
Proof.
  unfold basis. cbn [seq map]. f_equal. rewrite <- seq_shift, map_map. transitivity (map (fun _ : nat => 0) (seq 0 n)); [apply map_ext; reflexivity|].
  generalize 0%nat at 1. induction n as [|n IH]; intros i; [reflexivity|]. cbn [seq map repeat]. f_equal. apply IH.
Qed.

Lemma inner_basis f n k : (k < n)%nat -> inner f (basis n k) = nth k f 0.
Proof.
  revert n k. induction f as [|a f IH]; intros n k L; [now destruct k|].
  destruct n as [|n]; [lia|]. destruct k as [|k].
  - rewrite basis_zero. cbn [inner nth]. rewrite inner_zero. ring.
  - rewrite basis_succ. cbn [inner nth]. rewrite IH by lia. ring.
Qed.

Lemma map_zero l : map (fun _ : nat => 0) l = repeat 0 (length l).
Proof. induction l as [|a l IH]; [reflexivity|]. cbn [map repeat length]. now rewrite IH. Qed.

Lemma flat_zero (l l' : list nat) : flat_map (fun _ => map (fun _ => 0) l') l = repeat 0 (length l * length l').
Proof. induction l as [|a l IH]; [reflexivity|]. cbn [flat_map length Nat.mul]. now rewrite IH, map_zero, repeat_app. Qed.

Lemma tabulate_zero n m : entries (tabulate n m (fun _ _ => 0)) = repeat 0 (n * m).
Proof. unfold tabulate. cbn [entries]. rewrite flat_zero, !seq_length. reflexivity. Qed.

(** Only the first [d + 2] components are tested. *)
Lemma tested v (b : bool) n k : (k < n)%nat -> inner v (if b then basis n k else repeat 0 n) = if b then nth k v 0 else 0.
Proof. intros K. destruct b; [now apply inner_basis|apply inner_zero]. Qed.

Lemma tested_integral q (p : nat -> bool) (v : nat -> result (list R)) n k a : (k < n)%nat ->
  integral q (fun x => let* r := v x in Ok (inner r (if p x then basis n k else repeat 0 n))) = Ok a ->
  computed q v /\ a = weighted (at_points p q) (component v k).
Proof.
  intros K H. apply integral_ok in H as [Hc ->]. split.
  - intros w x I. destruct (Hc w x I) as [b Hb]. destruct (v x) as [l|]; [now exists l|discriminate].
  - rewrite <- weighted_select. apply weighted_ext. intros w x I. destruct (Hc w x I) as [b Hb]. unfold component.
    destruct (v x) as [l|]; cbn [bind got] in *; [now apply tested|discriminate].
Qed.
