(** C59: the update step of Newton's method with and without static condensation. *)
From Coq Require Import Reals List Arith Bool Lia Lra.
From Verif Require Import M_Solve S_Solve L_Solve M_Condense S_Condense.
Import ListNotations.
Open Scope R_scope.

(** ** Sums *)

Lemma sum_ext n f h : (forall k, (k < n)%nat -> f k = h k) -> sum n f = sum n h.
Proof. induction n as [|n IH]; intros E; cbn [sum]; [reflexivity|]. rewrite IH by (intros k K; apply E; lia). rewrite E by lia. reflexivity. Qed.

Lemma sum_zero n f : (forall k, (k < n)%nat -> f k = 0) -> sum n f = 0.
Proof. induction n as [|n IH]; intros E; cbn [sum]; [reflexivity|]. rewrite IH by (intros k K; apply E; lia). rewrite E by lia. ring. Qed.

Lemma sum_plus n f h : sum n (fun k => f k + h k) = sum n f + sum n h.
Proof. induction n as [|n IH]; cbn [sum]; [ring|]. rewrite IH. ring. Qed.

Lemma sum_scale n a f : sum n (fun k => a * f k) = a * sum n f.
Proof. induction n as [|n IH]; cbn [sum]; [ring|]. rewrite IH. ring. Qed.

Lemma sum_swap n m f : sum n (fun i => sum m (fun j => f i j)) = sum m (fun j => sum n (fun i => f i j)).
Proof. induction n as [|n IH]; cbn [sum]; [now rewrite sum_zero|]. rewrite IH, sum_plus. reflexivity. Qed.

Lemma sum_single n i f : (i < n)%nat -> sum n (fun k => (if (i =? k)%nat then 1 else 0) * f k) = f i.
Proof.
  induction n as [|n IH]; intros I; [lia|]. cbn [sum]. destruct (Nat.eq_dec i n) as [->|D].
  - rewrite Nat.eqb_refl, sum_zero; [ring|]. intros k K. destruct (Nat.eqb_spec n k); [lia|ring].
  - rewrite IH by lia. destruct (Nat.eqb_spec i n); [lia|ring].
Qed.

Lemma times_ext n A B x y : (forall i j, (i < n)%nat -> (j < n)%nat -> A i j * x j = B i j * y j) -> forall i, (i < n)%nat -> times n A x i = times n B y i.
Proof. intros E i I. apply sum_ext. intros j J. now apply E. Qed.

Lemma times_vector n A x y i : (forall j, (j < n)%nat -> x j = y j) -> times n A x i = times n A y i.
Proof. intros E. apply sum_ext. intros j J. now rewrite E. Qed.

Lemma times_plus n A x y i : times n A (fun j => x j + y j) i = times n A x i + times n A y i.
Proof. unfold times. rewrite <- sum_plus. apply sum_ext. intros. ring. Qed.

Lemma times_scale n A a x i : times n A (fun j => a * x j) i = a * times n A x i.
Proof. unfold times. rewrite <- sum_scale. apply sum_ext. intros. ring. Qed.

Lemma times_compose n A B x i : times n (compose n A B) x i = times n A (times n B x) i.
Proof.
  unfold times, compose. rewrite (sum_ext n (fun j => sum n (fun k => A i k * B k j) * x j) (fun j => sum n (fun k => A i k * (B k j * x j)))).
  - rewrite sum_swap. apply sum_ext. intros k K. rewrite sum_scale. reflexivity.
  - intros j J. rewrite Rmult_comm, <- sum_scale. apply sum_ext. intros. ring.
Qed.

(** A vector without the entries outside [p]. *)
Definition part_of (p : nat -> bool) (x : nat -> R) (i : nat) : R := if p i then x i else 0.

Lemma times_block n p q A x i : p i = true -> times n (block p q A) x i = times n A (part_of q x) i.
Proof. intros P. apply sum_ext. intros j J. unfold block, part_of. rewrite P. cbn [andb]. destruct (q j); ring. Qed.

Lemma times_block_out n p q A x i : p i = false -> times n (block p q A) x i = 0.
Proof. intros P. apply sum_zero. intros j J. unfold block. rewrite P. cbn [andb]. ring. Qed.

(** The inverse of a part solves there. *)
Lemma inverse_solves n p A B r i : inverse_on n p A B -> (i < n)%nat -> p i = true -> times n A (times n B r) i = r i.
Proof.
  intros [Z I] Hi P.
  rewrite (times_vector n A (times n B r) (part_of p (times n B r))).
  2: { intros j J. unfold part_of. destruct (p j) eqn:E; [reflexivity|]. apply sum_zero. intros k K. rewrite Z; trivial; [ring|]. now rewrite E. }
  rewrite <- (times_block n p p) by exact P. rewrite <- times_compose.
  rewrite <- (sum_single n i r Hi). apply sum_ext. intros j J. destruct (p j) eqn:E; [now rewrite (proj1 (I i j Hi J P E))|].
  unfold compose. rewrite sum_zero; [|intros k K; rewrite (Z k j) by (trivial; rewrite E; apply andb_false_r); ring].
  destruct (Nat.eqb_spec i j); [congruence|ring].
Qed.

Lemma inverse_outside n p A B r i : inverse_on n p A B -> (i < n)%nat -> p i = false -> times n B r i = 0.
Proof. intros [Z _] Hi P. apply sum_zero. intros j J. rewrite Z; trivial; [ring|]. now rewrite P. Qed.

(** A solution in the part is the one of the inverse. *)
Lemma inverse_unique n p A B r x i : inverse_on n p A B -> (forall j, (j < n)%nat -> p j = false -> x j = 0) ->
  (forall j, (j < n)%nat -> p j = true -> times n A x j = r j) -> (i < n)%nat -> p i = true -> x i = times n B r i.
Proof.
  intros [Z I] X0 Xs Hi P.
  transitivity (times n B (times n (block p p A) x) i).
  - rewrite <- times_compose. rewrite <- (sum_single n i x Hi). apply sum_ext. intros j J. destruct (p j) eqn:E.
    + now rewrite (proj2 (I i j Hi J P E)).
    + rewrite (X0 j J E). ring.
  - apply sum_ext. intros j J. destruct (p j) eqn:E.
    + rewrite times_block by exact E. rewrite <- (Xs j J E). f_equal. apply times_vector. intros k K. unfold part_of. destruct (p k) eqn:Ek; [reflexivity|]. symmetry. now apply X0.
    + rewrite (Z i j); trivial; [ring|]. now rewrite E, andb_false_r.
Qed.

(** ** The update step *)

(** Without condensation the correction solves the linearized system. *)
Theorem c59_full : forall n free A apply load factorise u, full_factors n free A (factorise u) ->
  let (du, residual) := solve_update_step n false apply load factorise u in
  solves_system n free A (fun i => apply u i - load i) du /\ forall i, residual i = apply u i - load i.
Proof.
  intros n free A apply load factorise u H. cbn [solve_update_step]. split; [|reflexivity]. intros i Hi. destruct (free i) eqn:E.
  - now apply (inverse_solves n free A (inv (factorise u)) (fun j => apply u j - load j)).
  - now apply (inverse_outside n free A).
Qed.
Print Assumptions c59_full.

(** With condensation it solves the same system. *)
Theorem c59_condensed : forall n free loc A apply load factorise u, condensed_factors n free loc A (factorise u) ->
  let (du, residual) := solve_update_step n true apply load factorise u in
  solves_system n free A (fun i => apply u i - load i) du.
Proof.
  intros n free loc A apply load factorise u (Lf & Iz & Ie & It & Is). cbn [solve_update_step].
  set (f := factorise u) in *. set (r := fun i => apply u i - load i). set (g := global loc) in *. set (Z := inner_solve f) in *.
  set (r' := fun i => r i + times n (extension_trans f) r i).
  set (t1 := times n (inv f) r'). set (t2 := fun i => t1 i + times n (extension f) t1 i). set (t3 := fun i => t2 i + times n Z r' i).
  assert (Er : forall i, (i < n)%nat -> r' i = if loc i then r i else r i - times n A (part_of loc (times n Z r)) i).
  { intros i Hi. unfold r'. rewrite (times_ext n (extension_trans f) (fun i j => - compose n (block g loc A) Z i j) r r) by (trivial; intros a b Ha Hb; now rewrite It).
    rewrite (times_ext n _ (compose n (block g loc A) Z) r (fun j => -1 * r j)) by (trivial; intros; ring).
    rewrite times_scale, times_compose. destruct (loc i) eqn:E.
    - rewrite times_block_out by (unfold g, global; now rewrite E). ring.
    - rewrite times_block by (unfold g, global; now rewrite E). ring. }
  assert (Et1 : forall i, (i < n)%nat -> loc i = true -> t1 i = 0).
  { intros i Hi E. apply (inverse_outside n _ _ _ _ i Is Hi). unfold g, global. rewrite E. apply andb_false_r. }
  assert (EZ : forall x y i, (i < n)%nat -> (forall j, (j < n)%nat -> loc j = true -> x j = y j) -> times n Z x i = times n Z y i).
  { intros x y i Hi Xy. apply sum_ext. intros j J. destruct (loc j) eqn:E; [now rewrite Xy|]. rewrite (proj1 Iz i j Hi J); [ring|]. now rewrite E, andb_false_r. }
  assert (Et2 : forall i, (i < n)%nat -> times n (extension f) t1 i = - times n Z (times n A t1) i).
  { intros i Hi. rewrite (times_ext n (extension f) (fun i j => - compose n Z (block loc g A) i j) t1 t1) by (trivial; intros a b Ha Hb; now rewrite Ie).
    rewrite (times_ext n _ (compose n Z (block loc g A)) t1 (fun j => -1 * t1 j)) by (trivial; intros; ring).
    rewrite times_scale, times_compose. rewrite (EZ _ (times n A t1)); [ring|exact Hi|]. intros j J E. rewrite times_block by exact E.
    apply times_vector. intros k K. unfold part_of. unfold g, global. destruct (loc k) eqn:Ek; [|reflexivity]. cbn [negb]. symmetry. now apply Et1. }
  assert (El : forall i, (i < n)%nat -> loc i = true -> t3 i = times n Z (fun j => r j - times n A t1 j) i).
  { intros i Hi E. unfold t3, t2. rewrite (Et1 i Hi E), (Et2 i Hi). rewrite (EZ r' r i Hi) by (intros j J Ej; rewrite Er, Ej by exact J; reflexivity).
    rewrite (times_vector n Z (fun j => r j - times n A t1 j) (fun j => r j + -1 * times n A t1 j)) by (intros; ring). rewrite times_plus, times_scale. ring. }
  assert (Zo : forall x i, (i < n)%nat -> loc i = false -> times n Z x i = 0).
  { intros x i Hi E. now apply (inverse_outside n loc A). }
  assert (Eg : forall i, (i < n)%nat -> loc i = false -> t3 i = t1 i).
  { intros i Hi E. unfold t3, t2. rewrite Et2, !Zo by trivial. ring. }
  set (w := times n Z (fun j => r j - times n A t1 j)).
  assert (E3 : forall i, (i < n)%nat -> t3 i = t1 i + w i).
  { intros i Hi. destruct (loc i) eqn:E; [rewrite El, Et1 by trivial; fold w; ring|]. rewrite Eg by trivial. unfold w. rewrite Zo by trivial. ring. }
  intros i Hi. cbn beta. fold r. destruct (free i) eqn:Fr.
  - change (times n A t3 i = r i). rewrite (times_vector n A t3 (fun j => t1 j + w j)) by exact E3. rewrite times_plus. destruct (loc i) eqn:E.
    + unfold w. rewrite (inverse_solves n loc A Z _ i Iz Hi E). ring.
    + assert (Q : free i && g i = true) by (unfold g, global; now rewrite Fr, E).
      pose proof (inverse_solves n _ _ _ r' i Is Hi Q) as S1.
      rewrite (times_ext n _ (fun i j => A i j + -1 * compose n (compose n (block g loc A) Z) (block loc g A) i j) (times n (inv f) r') t1) in S1; [|intros; fold t1; ring|exact Hi].
      assert (S2 : times n (fun i j => A i j + -1 * compose n (compose n (block g loc A) Z) (block loc g A) i j) t1 i = times n A t1 i - times n A (part_of loc (times n Z (times n A t1))) i).
      { transitivity (times n A t1 i + -1 * times n (compose n (compose n (block g loc A) Z) (block loc g A)) t1 i).
        - unfold times. rewrite <- sum_scale, <- sum_plus. apply sum_ext. intros. ring.
        - rewrite times_compose, times_compose, times_block by (unfold g, global; now rewrite E).
          rewrite (times_vector n A (part_of loc (times n Z (times n (block loc g A) t1))) (part_of loc (times n Z (times n A t1)))); [ring|].
          intros k K. unfold part_of. destruct (loc k) eqn:Ek; [|reflexivity]. apply EZ; trivial. intros j J Ej. rewrite times_block by exact Ej.
          apply times_vector. intros l Hl. unfold part_of, g, global. destruct (loc l) eqn:Ell; [|reflexivity]. cbn [negb]. symmetry. now apply Et1. }
      rewrite S2, Er, E in S1 by exact Hi.
      assert (Ew : times n A w i = times n A (part_of loc (times n Z r)) i - times n A (part_of loc (times n Z (times n A t1))) i).
      { rewrite (times_vector n A w (fun j => part_of loc (times n Z r) j + -1 * part_of loc (times n Z (times n A t1)) j)); [rewrite times_plus, times_scale; ring|].
        intros j J. unfold w, part_of. rewrite (times_vector n Z _ (fun j => r j + -1 * times n A t1 j)) by (intros; ring). rewrite times_plus, times_scale.
        destruct (loc j) eqn:Ej; [ring|]. rewrite !Zo by trivial. ring. }
      rewrite Ew. lra.
  - change (t3 i = 0). destruct (loc i) eqn:E; [rewrite (Lf i Hi E) in Fr; discriminate|]. rewrite Eg by trivial. apply (inverse_outside n _ _ _ _ i Is Hi). now rewrite Fr.
Qed.
Print Assumptions c59_condensed.

Lemma system_unique n free A B r x y : inverse_on n free A B -> solves_system n free A r x -> solves_system n free A r y -> forall i, (i < n)%nat -> x i = y i.
Proof.
  intros I Sx Sy i Hi.
  assert (U : forall z, solves_system n free A r z -> z i = if free i then times n B r i else 0).
  { intros z Sz. destruct (free i) eqn:E; [|specialize (Sz i Hi); now rewrite E in Sz]. apply (inverse_unique n free A B r z i I); trivial.
    - intros j J Ej. specialize (Sz j J). now rewrite Ej in Sz.
    - intros j J Ej. specialize (Sz j J). now rewrite Ej in Sz. }
  now rewrite (U x Sx), (U y Sy).
Qed.

(** So static condensation does not change the correction: if the linearization is the same, both steps agree. *)
Theorem c59_same_correction : forall n free loc A apply load plain condensed u,
  full_factors n free A (plain u) -> condensed_factors n free loc A (condensed u) ->
  forall i, (i < n)%nat ->
  fst (solve_update_step n true apply load condensed u) i = fst (solve_update_step n false apply load plain u) i.
Proof.
  intros n free loc A apply load plain condensed u Hp Hc i Hi.
  pose proof (c59_full n free A apply load plain u Hp) as F. pose proof (c59_condensed n free loc A apply load condensed u Hc) as C.
  destruct (solve_update_step n true apply load condensed u) as [x rx]. destruct (solve_update_step n false apply load plain u) as [y ry].
  exact (system_unique n free A (inv (plain u)) _ x y Hp C (proj1 F) i Hi).
Qed.
Print Assumptions c59_same_correction.

(** ** The iteration *)

Lemma correction_solves n condense free loc A apply load factorise u it du ip :
  factors_for condense n free loc A (factorise u) -> update_step n condense apply load factorise it u = (du, ip) ->
  solves_system n free A (fun i => apply u i - load i) du /\ exists r, ip = Fin r.
Proof.
  intros F E. unfold update_step in E. destruct condense; cbn [factors_for] in F.
  - pose proof (c59_condensed n free loc A apply load factorise u F) as C. destruct (solve_update_step n true apply load factorise u) as [x rx]. injection E as <- <-. split; [exact C|now eexists].
  - pose proof (c59_full n free A apply load factorise u F) as C. destruct (solve_update_step n false apply load factorise u) as [x rx]. injection E as <- <-. split; [apply C|now eexists].
Qed.

Lemma fin_status crit st r : set_iteration_error crit st (Fin r) = mk_status (if Rlt_dec (Rabs r) crit then true else false) (st_nan st).
Proof. unfold set_iteration_error. cbn [iteration_error below fval_isnan]. now rewrite sqrt_sq_abs. Qed.

Lemma linear_loop n condense free loc A load factorise crit d : (forall u, factors_for condense n free loc A (factorise u)) ->
  forall k it u st tr uf stf, st_nan st = false ->
  solve_loop crit d (update_step n condense (times n A) load factorise) it k u st = (tr, uf, stf) ->
  exists steps, (steps <= k)%nat /\ (0 < k -> 0 < steps)%nat /\ length tr = (3 * steps)%nat /\ st_nan stf = false /\
    (st_converged st = false -> st_converged stf = false -> steps = k) /\
    forall i, (i < n)%nat -> if free i then times n A uf i - load i = (1 - d) ^ steps * (times n A u i - load i) else uf i = u i.
Proof.
  intros F. induction k as [|k IH]; intros it u st tr uf stf Hn H.
  - injection H as <- <- <-. exists 0%nat. repeat match goal with |- _ /\ _ => split end; trivial; try lia. intros i Hi. destruct (free i); [cbn; ring|reflexivity].
  - cbn [solve_loop] in H. destruct (update_step n condense (times n A) load factorise it u) as [du ip] eqn:E.
    destruct (correction_solves n condense free loc A _ load factorise u it du ip (F u) E) as [Sy (r & ->)].
    rewrite fin_status in H. cbn [st_nan st_converged] in H. rewrite Hn in H.
    assert (S1 : forall i, (i < n)%nat -> if free i then times n A (update_solution d u du) i - load i = (1 - d) * (times n A u i - load i) else update_solution d u du i = u i).
    { intros i Hi. specialize (Sy i Hi). destruct (free i).
      - rewrite (times_vector n A _ (fun j => u j + - d * du j)) by (intros; unfold update_solution; ring). rewrite times_plus, times_scale, Sy. ring.
      - unfold update_solution. rewrite Sy. ring. }
    destruct (Rlt_dec (Rabs r) crit).
    + injection H as <- <- <-. exists 1%nat. repeat match goal with |- _ /\ _ => split end; trivial; try lia; [discriminate|].
      intros i Hi. specialize (S1 i Hi). destruct (free i); [rewrite S1; ring|exact S1].
    + destruct (solve_loop crit d _ (S it) k (update_solution d u du) _) as [[tr1 uf1] stf1] eqn:E1. injection H as <- <- <-.
      destruct (IH _ _ _ _ _ _ (eq_refl : st_nan (mk_status false false) = false) E1) as (steps & L & P & T & N & C & S2).
      exists (S steps). repeat match goal with |- _ /\ _ => split end; trivial; try lia; [cbn [length]; lia| |].
      * intros _ C1. rewrite (C eq_refl C1). reflexivity.
      * intros i Hi. specialize (S1 i Hi). specialize (S2 i Hi). destruct (free i); [rewrite S2, S1; cbn [pow]; ring|]. now rewrite S2.
Qed.

(** A linear problem, any damping, with or without condensation: every iteration multiplies the residual by
    [1 - damping]; without damping one iteration solves the problem. Unless convergence is reported all iterations are made. *)
Theorem c59_linear : forall n condense free loc A load factorise max crit d u0 tr uf st,
  (forall u, factors_for condense n free loc A (factorise u)) ->
  nl_solve max crit d (update_step n condense (times n A) load factorise) u0 = (tr, uf, st) ->
  exists steps, (steps <= max)%nat /\ (0 < max -> 0 < steps)%nat /\ length tr = (3 * steps)%nat /\ st_nan st = false /\
    (st_converged st = false -> steps = max) /\
    (forall i, (i < n)%nat -> if free i then times n A uf i - load i = (1 - d) ^ steps * (times n A u0 i - load i) else uf i = u0 i) /\
    (d = 1 -> (0 < max)%nat -> forall i, (i < n)%nat -> free i = true -> times n A uf i = load i).
Proof.
  intros n condense free loc A load factorise max crit d u0 tr uf st F H.
  destruct (linear_loop n condense free loc A load factorise crit d F max 0 u0 reset_status tr uf st eq_refl H) as (steps & L & P & T & N & C & S).
  exists steps. repeat match goal with |- _ /\ _ => split end; trivial; [now apply C|].
  intros -> M i Hi Fr. specialize (S i Hi). rewrite Fr in S. specialize (P M). destruct steps as [|k]; [lia|]. cbn [pow] in S. lra.
Qed.
Print Assumptions c59_linear.

(** Without condensation, a linearization with positive definite symmetric part: the reported error bounds the
    correction. *)
Theorem c59_definite : forall n free A apply load factorise u a crit du ip it, full_factors n free A (factorise u) ->
  0 < a -> (forall x, a * product n x x <= product n x (times n A x)) ->
  update_step n false apply load factorise it u = (du, ip) -> small crit ip -> a * product n du du < crit.
Proof.
  intros n free A apply load factorise u a crit du ip it F Ha Co E (r & -> & Sm).
  destruct (correction_solves n false free (fun _ => false) A apply load factorise u it du _ F E) as [Sy _].
  unfold update_step in E. cbn [solve_update_step] in E. injection E as <- Er. set (du := times n (inv (factorise u)) (fun i => apply u i - load i)) in *.
  assert (Ep : product n du (times n A du) = r).
  { rewrite <- Er. apply sum_ext. intros i Hi. specialize (Sy i Hi). destruct (free i); [now rewrite Sy|rewrite Sy; ring]. }
  specialize (Co du). rewrite Ep in Co. pose proof (Rle_abs r). lra.
Qed.
Print Assumptions c59_definite.

(** Otherwise it does not: with a skew-symmetric linearization the error is zero whatever the residual, so the first step
    counts as convergence. *)
Theorem c59_criterion_refuted : forall n free A load factorise max crit d u0 tr uf st,
  (forall u, full_factors n free A (factorise u)) -> (forall x, product n x (times n A x) = 0) -> 0 < crit -> (0 < max)%nat ->
  nl_solve max crit d (update_step n false (times n A) load factorise) u0 = (tr, uf, st) ->
  st_converged st = true /\ length tr = 3%nat /\
  forall i, (i < n)%nat -> free i = true -> times n A uf i - load i = (1 - d) * (times n A u0 i - load i).
Proof.
  intros n free A load factorise max crit d u0 tr uf st F Sk C M H.
  destruct max as [|max]; [lia|]. unfold nl_solve in H. cbn [solve_loop] in H.
  destruct (update_step n false (times n A) load factorise 0 u0) as [du ip] eqn:E.
  destruct (correction_solves n false free (fun _ => false) A _ load factorise u0 0 du ip (F u0) E) as [Sy (r & ->)].
  unfold update_step in E. cbn [solve_update_step] in E. injection E as E1 Er. rewrite E1 in Er.
  assert (R0 : r = 0).
  { rewrite <- Er, <- (Sk du). apply sum_ext. intros i Hi. specialize (Sy i Hi). destruct (free i); [now rewrite Sy|rewrite Sy; ring]. }
  rewrite fin_status in H. cbn [st_nan st_converged reset_status] in H. rewrite R0, Rabs_R0 in H. destruct (Rlt_dec 0 crit); [|contradiction]. injection H as <- <- <-.
  split; [reflexivity|]. split; [reflexivity|]. intros i Hi Fr. specialize (Sy i Hi). rewrite Fr in Sy.
  rewrite (times_vector n A _ (fun j => u0 j + - d * du j)) by (intros; unfold update_solution; ring). rewrite times_plus, times_scale, Sy. ring.
Qed.
Print Assumptions c59_criterion_refuted.

(** ** Examples *)

(** Two unknowns, the first in the element: matrix ((1, 0), (2, 1)). *)
Definition lower (i j : nat) : R := match i, j with 0%nat, 0%nat => 1 | 1%nat, 0%nat => 2 | 1%nat, 1%nat => 1 | _, _ => 0 end.
Definition lower_factors : factors :=
  mk_factors (fun i j => match i, j with 0%nat, 0%nat => 1 | 1%nat, 0%nat => -2 | 1%nat, 1%nat => 1 | _, _ => 0 end) (fun _ _ => 0) (fun _ _ => 0) (fun _ _ => 0).
Definition lower_condensed : factors :=
  mk_factors (fun i j => match i, j with 1%nat, 1%nat => 1 | _, _ => 0 end) (fun _ _ => 0)
    (fun i j => match i, j with 1%nat, 0%nat => -2 | _, _ => 0 end) (fun i j => match i, j with 0%nat, 0%nat => 1 | _, _ => 0 end).

Ltac two i I := destruct i as [|[|i]]; [| |exfalso; lia].

Lemma lower_ok : full_factors 2 (fun _ => true) lower lower_factors /\ condensed_factors 2 (fun _ => true) (fun i => i =? 0)%nat lower lower_condensed.
Proof.
  split; [|split; [|split; [|split; [|split]]]].
  - split; intros i j I J; two i I; two j J; cbn; try discriminate; intros; repeat split; ring.
  - reflexivity.
  - split; intros i j I J; two i I; two j J; cbn; try discriminate; intros; repeat split; ring.
  - intros i j I J. two i I; two j J; cbn; ring.
  - intros i j I J. two i I; two j J; cbn; ring.
  - split; intros i j I J; two i I; two j J; cbn; try discriminate; intros; repeat split; ring.
Qed.

(** Static condensation changes the reported error and so may change the solution: here the plain solver stops after one
    damped step, the condensed one makes another. *)
Theorem c59_error_refuted : exists n free loc A apply load plain condensed max crit d u0,
  0 < crit /\ (forall u, full_factors n free A (plain u)) /\ (forall u, condensed_factors n free loc A (condensed u)) /\
  forall tr uf st tr' uf' st',
  nl_solve max crit d (update_step n false apply load plain) u0 = (tr, uf, st) ->
  nl_solve max crit d (update_step n true apply load condensed) u0 = (tr', uf', st') ->
  length tr = 3%nat /\ length tr' = 6%nat /\ uf 0%nat = - 1 / 2 /\ uf' 0%nat = - 3 / 4.
Proof.
  exists 2%nat, (fun _ => true), (fun i => i =? 0)%nat, lower, (times 2 lower), (fun _ => -1), (fun _ => lower_factors), (fun _ => lower_condensed), 2%nat, 1, (1 / 2), (fun _ => 0).
  split; [lra|]. split; [intros _; apply lower_ok|]. split; [intros _; apply lower_ok|].
  intros tr uf st tr' uf' st' H H'. unfold nl_solve, update_step in H, H'. cbn [solve_loop solve_update_step] in H, H'.
  rewrite fin_status in H. match type of H with context [Rlt_dec (Rabs ?x) 1] => replace x with 0 in H by (unfold product, times; cbn; ring) end.
  rewrite Rabs_R0 in H. destruct (Rlt_dec 0 1) as [_|C]; [|lra]. cbn [st_nan st_converged reset_status] in H. injection H as <- <- <-.
  rewrite fin_status in H'. match type of H' with context [Rlt_dec (Rabs ?x) 1] => replace x with 2 in H' by (unfold product, times; cbn; ring) end.
  rewrite (Rabs_pos_eq 2) in H' by lra. destruct (Rlt_dec 2 1) as [C|_]; [lra|]. cbn [st_nan st_converged reset_status] in H'.
  rewrite fin_status in H'. match type of H' with context [Rlt_dec (Rabs ?x) 1] => replace x with (1 / 2) in H' by (unfold product, times, update_solution; cbn; field) end.
  rewrite (Rabs_pos_eq (1 / 2)) in H' by lra. destruct (Rlt_dec (1 / 2) 1) as [_|C]; [|lra]. cbn [st_nan st_converged] in H'. injection H' as <- <- <-.
  split; [reflexivity|]. split; [reflexivity|]. unfold update_solution, times. cbn. split; field.
Qed.
Print Assumptions c59_error_refuted.

(** A positive definite problem and a skew-symmetric one. *)
Example c59_example :
  (forall x, 1 / 2 * product 2 x x <= product 2 x (times 2 (fun i j => if (i =? j)%nat then 1 else if (i =? 0)%nat then 1 / 2 else - (1 / 2)) x)) /\
  let skew := (fun i j => match i, j with 0%nat, 1%nat => 1 | 1%nat, 0%nat => -1 | _, _ => 0 end) in
  full_factors 2 (fun _ => true) skew (mk_factors (fun i j => - skew i j) (fun _ _ => 0) (fun _ _ => 0) (fun _ _ => 0)) /\
  (forall x, product 2 x (times 2 skew x) = 0) /\ times 2 skew (fun _ => 0) 0 - 1000 = -1000.
Proof.
  split; [|split; [|split]].
  - intros x. unfold product, times. cbn. pose proof (pow2_ge_0 (x 0%nat)). pose proof (pow2_ge_0 (x 1%nat)). cbn [pow] in *. nra.
  - split; intros i j I J; two i I; two j J; cbn; try discriminate; intros; repeat split; ring.
  - intros x. unfold product, times. cbn. ring.
  - unfold times. cbn. ring.
Qed.
