(** Derivatives of values that may be exceptions, continuity, and the curve of states of a family of unknowns. *)
From Coq Require Import Reals String List Arith Bool Lia Lra Permutation.
From Coquelicot Require Import Coquelicot.
From Verif Require Import Base M_Bla M_Flow M_Formulation M_Weak S_Flow S_Chars S_Formulation S_Weak S_March S_Small L_Flow L_Formulation L_Weak P_Eos P_Chars P_Jacobian P_Split P_Riemann P_Boundary.
From Verif Require Import S_Formulation.
Import ListNotations.
Open Scope R_scope.
Open Scope list_scope.

(** ** Derivatives of computed values *)

Definition derives (f : R -> result R) (d : R) : Prop := exists h, locally 0 (fun e => f e = Ok (h e)) /\ is_derive h 0 d.

Definition vderives (n : nat) (f : R -> result (list R)) (v : list R) : Prop :=
  exists h, locally 0 (fun e => f e = Ok (h e) /\ length (h e) = n) /\ length v = n /\
    forall k, (k < n)%nat -> is_derive (fun e => nth k (h e) 0) 0 (nth k v 0).

Lemma derives_value f d d' : d = d' -> derives f d -> derives f d'.
Proof. now intros ->. Qed.

Lemma derives_loc f f' d : locally 0 (fun e => f e = f' e) -> derives f d -> derives f' d.
Proof.
  intros L (h & H & D). exists h. split; [|exact D]. generalize (filter_and _ _ L H). apply filter_imp. intros e [E1 E2]. now rewrite <- E1.
Qed.

Lemma derives_zero f d : derives f d -> locally 0 (fun e => f e = Ok 0) -> d = 0.
Proof.
  intros (h & H & D) Z.
  assert (L : locally 0 (fun e => 0 = h e)) by (generalize (filter_and _ _ H Z); apply filter_imp; intros e [E1 E2]; rewrite E2 in E1; now injection E1).
  assert (D0 : is_derive h 0 0) by (apply (is_derive_ext_loc (fun _ => 0) h); [exact L|apply @is_derive_const]).
  pose proof (is_derive_unique _ _ _ D) as U. rewrite (is_derive_unique _ _ _ D0) in U. now symmetry.
Qed.

Lemma derives_plus f g a b : derives f a -> derives g b -> derives (fun e => let* x := f e in let* y := g e in Ok (x + y)) (a + b).
Proof.
  intros (h & H & D) (k & K & E). exists (fun e => h e + k e). split.
  - generalize (filter_and _ _ H K). apply filter_imp. intros e [-> ->]. reflexivity.
  - apply @is_derive_plus; assumption.
Qed.

Lemma derives_const c : derives (fun _ => Ok c) 0.
Proof. exists (fun _ => c). split; [apply filter_forall; reflexivity|apply @is_derive_const]. Qed.

Lemma derives_integral (f : R -> nat -> result R) d q : (forall w x, In (w, x) q -> derives (fun e => f e x) (d x)) -> derives (fun e => integral q (f e)) (weighted q d).
Proof.
  induction q as [|[w x] q IH]; intros H; cbn [integral weighted]; [apply derives_const|].
  destruct (H w x (or_introl eq_refl)) as (h & L & D). destruct IH as (k & Lk & Dk); [intros w' x' I; apply (H w'); now right|].
  exists (fun e => w * h e + k e). split.
  - generalize (filter_and _ _ L Lk). apply filter_imp. intros e [-> ->]. reflexivity.
  - apply @is_derive_plus; [|exact Dk]. apply is_derive_scal. exact D.
Qed.

Lemma derives_total n (f : nat -> R -> R) (d : nat -> R) x : (forall k, (k < n)%nat -> is_derive (f k) x (d k)) -> is_derive (fun e => total n (fun k => f k e)) x (total n d).
Proof.
  induction n as [|n IH]; intros H; cbn [total]; [apply @is_derive_const|]. apply @is_derive_plus; [apply IH; intros; apply H; lia|apply H; lia].
Qed.

(** Testing a computed vector. *)
Lemma derives_inner n f v a t : vderives n f v -> length t = n -> derives (fun e => let* r := f e in Ok (a * inner r t)) (a * inner v t).
Proof.
  intros (h & H & Lv & D) Lt. exists (fun e => a * total n (fun k => nth k (h e) 0 * nth k t 0)). split.
  - revert H. apply filter_imp. intros e [-> L]. cbn [bind]. f_equal. f_equal. rewrite inner_total by congruence. now rewrite L.
  - rewrite inner_total by congruence. rewrite Lv. apply is_derive_scal. apply derives_total. intros k K.
    evar_last; [apply (is_derive_mult (fun e => nth k (h e) 0) (fun _ => nth k t 0) 0 (nth k v 0) 0); [apply D, K|apply @is_derive_const|intros; apply Rmult_comm]|].
    change (@eq R (nth k v 0 * nth k t 0 + nth k (h 0) 0 * 0) (nth k v 0 * nth k t 0)). ring.
Qed.

Lemma vderives_loc n f f' v : locally 0 (fun e => f e = f' e) -> vderives n f v -> vderives n f' v.
Proof.
  intros L (h & H & D). exists h. split; [|exact D]. generalize (filter_and _ _ L H). apply filter_imp. intros e (E1 & E2 & E3). rewrite <- E1. now split.
Qed.

Lemma vderives_make n f h v : locally 0 (fun e => f e = Ok (h e)) -> (forall e, length (h e) = n) -> length v = n ->
  (forall k, (k < n)%nat -> is_derive (fun e => nth k (h e) 0) 0 (nth k v 0)) -> vderives n f v.
Proof. intros H L Lv D. exists h. split; [|now split]. revert H. apply filter_imp. intros e E. now split. Qed.

(** ** Continuity *)

Notation cont f := (@continuous R_UniformSpace R_UniformSpace f 0).

Lemma cconst a : cont (fun _ : R => a). Proof. apply continuous_const. Qed.
Lemma cplus (f h : R -> R) : cont f -> cont h -> cont (fun e => f e + h e). Proof. intros. now apply @continuous_plus. Qed.
Lemma copp (f : R -> R) : cont f -> cont (fun e => - f e). Proof. intros. now apply @continuous_opp. Qed.
Lemma cminus (f h : R -> R) : cont f -> cont h -> cont (fun e => f e - h e). Proof. intros. now apply @continuous_minus. Qed.
Lemma cmult (f h : R -> R) : cont f -> cont h -> cont (fun e => f e * h e). Proof. intros. now apply @continuous_mult. Qed.
Lemma cinv (f : R -> R) : cont f -> f 0 <> 0 -> cont (fun e => / f e).
Proof. intros C N. apply (continuous_comp f Rinv); [exact C|]. apply continuous_Rinv. exact N. Qed.
Lemma cdiv (f h : R -> R) : cont f -> cont h -> h 0 <> 0 -> cont (fun e => f e / h e).
Proof. intros. unfold Rdiv. apply cmult; [assumption|now apply cinv]. Qed.
Lemma csqr (f : R -> R) : cont f -> cont (fun e => f e ^ 2).
Proof. intros C. cbn [pow]. apply cmult; [exact C|]. apply cmult; [exact C|apply cconst]. Qed.
Lemma cabs (f : R -> R) : cont f -> cont (fun e => Rabs (f e)).
Proof. intros C. apply (continuous_comp f Rabs); [exact C|]. apply continuous_Rabs. Qed.
Lemma csqrt (f : R -> R) : cont f -> cont (fun e => sqrt (f e)).
Proof. intros C. apply (continuous_comp f sqrt); [exact C|]. apply continuous_sqrt. Qed.
Lemma rmax_abs x y : Rmax x y = (x + y + Rabs (x - y)) / 2.
Proof. unfold Rmax, Rabs. destruct (Rle_dec x y), (Rcase_abs (x - y)); lra. Qed.
Lemma rmin_abs x y : Rmin x y = (x + y - Rabs (x - y)) / 2.
Proof. unfold Rmin, Rabs. destruct (Rle_dec x y), (Rcase_abs (x - y)); lra. Qed.
Lemma cmax (f h : R -> R) : cont f -> cont h -> cont (fun e => Rmax (f e) (h e)).
Proof.
  intros F H. apply (continuous_ext (fun e => (f e + h e + Rabs (f e - h e)) / 2)); [intros e; symmetry; apply rmax_abs|].
  apply cdiv; [|apply cconst|lra]. apply cplus; [now apply cplus|]. apply cabs. now apply cminus.
Qed.
Lemma cmin (f h : R -> R) : cont f -> cont h -> cont (fun e => Rmin (f e) (h e)).
Proof.
  intros F H. apply (continuous_ext (fun e => (f e + h e - Rabs (f e - h e)) / 2)); [intros e; symmetry; apply rmin_abs|].
  apply cdiv; [|apply cconst|lra]. apply cminus; [now apply cplus|]. apply cabs. now apply cminus.
Qed.

Lemma ctotal n (f : nat -> R -> R) : (forall k, (k < n)%nat -> cont (f k)) -> cont (fun e => total n (fun k => f k e)).
Proof. induction n as [|n IH]; intros H; cbn [total]; [apply cconst|]. apply cplus; [apply IH; intros; apply H; lia|apply H; lia]. Qed.

Lemma cpos (f : R -> R) : cont f -> 0 < f 0 -> locally 0 (fun e => 0 < f e).
Proof. intros C P. apply (C (fun y => 0 < y)). apply (open_gt 0 (f 0) P). Qed.
Lemma cneg (f : R -> R) : cont f -> f 0 < 0 -> locally 0 (fun e => f e < 0).
Proof. intros C P. apply (C (fun y => y < 0)). apply (open_lt 0 (f 0) P). Qed.

(** The product of a continuous factor and one that vanishes. *)
Lemma product_derive (f h : R -> R) (d : R) : cont f -> h 0 = 0 -> is_derive h 0 d -> is_derive (fun e => f e * h e) 0 (f 0 * d).
Proof.
  intros C Z D. apply is_derive_Reals. apply is_derive_Reals in D. intros eps He.
  assert (A : 0 < eps / (2 * (Rabs (f 0) + 1))) by (apply Rdiv_lt_0_compat; [exact He|pose proof (Rabs_pos (f 0)); lra]).
  destruct (D _ A) as (a & Da).
  assert (B : 0 < eps / (2 * (Rabs d + eps / (2 * (Rabs (f 0) + 1)) + 1))) by (apply Rdiv_lt_0_compat; [exact He|pose proof (Rabs_pos d); lra]).
  destruct (C (fun y => Rabs (y - f 0) < eps / (2 * (Rabs d + eps / (2 * (Rabs (f 0) + 1)) + 1)))) as (b & Cb).
  { exists (mkposreal _ B). intros y Hy. exact Hy. }
  assert (M : 0 < Rmin a b) by (apply Rmin_pos; [apply cond_pos|apply cond_pos]).
  exists (mkposreal _ M). cbn [pos]. intros t Ht Hm.
  assert (T1 : Rabs t < a) by (eapply Rlt_le_trans; [exact Hm|apply Rmin_l]). assert (T2 : Rabs t < b) by (eapply Rlt_le_trans; [exact Hm|apply Rmin_r]).
  specialize (Da t Ht T1). rewrite Rplus_0_l in *. rewrite Z in *. rewrite Rminus_0_r in Da. rewrite Rmult_0_r, Rminus_0_r.
  assert (Fb : Rabs (f t - f 0) < eps / (2 * (Rabs d + eps / (2 * (Rabs (f 0) + 1)) + 1))) by (apply Cb; change (Rabs (t - 0) < b); now rewrite Rminus_0_r).
  replace (f t * h t / t - f 0 * d) with (f 0 * (h t / t - d) + (f t - f 0) * (h t / t)) by (field; exact Ht).
  set (x := h t / t) in *. set (E1 := eps / (2 * (Rabs (f 0) + 1))) in *. set (E2 := eps / (2 * (Rabs d + E1 + 1))) in *.
  assert (X : Rabs x < Rabs d + E1). { replace x with (d + (x - d)) by ring. eapply Rle_lt_trans; [apply Rabs_triang|]. apply Rplus_lt_compat_l. exact Da. }
  eapply Rle_lt_trans; [apply Rabs_triang|]. rewrite !Rabs_mult.
  assert (Q1 : Rabs (f 0) * Rabs (x - d) <= Rabs (f 0) * E1) by (apply Rmult_le_compat_l; [apply Rabs_pos|lra]).
  assert (Q2 : Rabs (f t - f 0) * Rabs x <= E2 * (Rabs d + E1)) by (apply Rmult_le_compat; try apply Rabs_pos; lra).
  assert (Q3 : Rabs (f 0) * E1 < eps / 2).
  { unfold E1. pose proof (Rabs_pos (f 0)). apply Rlt_le_trans with ((Rabs (f 0) + 1) * (eps / (2 * (Rabs (f 0) + 1)))); [|right; field; lra].
    apply Rmult_lt_compat_r; [exact A|lra]. }
  assert (Q4 : E2 * (Rabs d + E1) < eps / 2).
  { unfold E2. pose proof (Rabs_pos d). apply Rlt_le_trans with (eps / (2 * (Rabs d + E1 + 1)) * (Rabs d + E1 + 1)); [|right; field; lra].
    apply Rmult_lt_compat_l; [exact B|lra]. }
  lra.
Qed.

Lemma derive_cont (f : R -> R) (d : R) : is_derive f 0 d -> cont f.
Proof. intros D. apply @ex_derive_continuous. now exists d. Qed.

(** A matrix with continuous entries times a vector that vanishes at 0. *)
Lemma matrix_derives (M : R -> matrix) (w : R -> list R) v i :
  (forall e, shape 4 (M e)) -> (i < 4)%nat -> (forall j, (j < 4)%nat -> cont (fun e => entry (M e) i j)) ->
  (forall j, (j < 4)%nat -> nth j (w 0) 0 = 0 /\ is_derive (fun e => nth j (w e) 0) 0 (nth j v 0)) ->
  is_derive (fun e => nth i (mvmul (M e) (w e)) 0) 0 (nth i (mvmul (M 0) v) 0).
Proof.
  intros Sh I C D.
  apply (is_derive_ext (fun e => total 4 (fun j => entry (M e) i j * nth j (w e) 0))).
  - intros e. destruct (Sh e) as (R1 & C1 & _). rewrite mvmul_total by (rewrite R1; exact I). now rewrite C1.
  - destruct (Sh 0) as (R1 & C1 & _). rewrite mvmul_total by (rewrite R1; exact I). rewrite C1.
    apply (derives_total 4 (fun j e => entry (M e) i j * nth j (w e) 0) (fun j => entry (M 0) i j * nth j v 0)). intros j J.
    apply (product_derive (fun e => entry (M e) i j) (fun e => nth j (w e) 0)); [apply C, J|apply D, J|apply D, J].
Qed.
