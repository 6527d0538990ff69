(** C72: stability and accuracy of time marching. *)
From Coq Require Import Reals Lra String List Arith Lia.
From Coquelicot Require Import Coquelicot.
From Verif Require Import Base Dict M_Scheme S_Scheme L_Scheme P_Scheme M_March M_Weak S_Weak L_Weak S_March.
Import ListNotations.
Local Open Scope R_scope.

(** ** Norms *)
Lemma ip_ext q u u' v v' : (forall x, u x = u' x) -> (forall x, v x = v' x) -> ip q u v = ip q u' v'.
Proof. intros A B. apply weighted_ext. intros w x _. rewrite A, B. reflexivity. Qed.

Lemma ip_comm q u v : ip q u v = ip q v u.
Proof. apply weighted_ext. intros. ring. Qed.

Lemma ip_linear q a b u v w : ip q (fun x => a * u x + b * v x) w = a * ip q u w + b * ip q v w.
Proof.
  unfold ip. rewrite (weighted_ext q _ (fun x => a * (u x * w x) + b * (v x * w x))) by (intros; ring). rewrite weighted_plus, !weighted_scale. reflexivity.
Qed.

Lemma ip_pos q u : nonnegative q -> 0 <= ip q u u.
Proof.
  unfold ip. intros P. induction q as [|[w x] q IH]; cbn [weighted]; [apply Rle_refl|].
  apply Rplus_le_le_0_compat; [apply Rmult_le_pos; [apply (P w x); left; reflexivity|apply Rle_0_sqr]|apply IH; intros w' x' I; apply (P w' x'); right; exact I].
Qed.

Lemma norm_sq q u : nonnegative q -> norm q u * norm q u = ip q u u.
Proof. intros P. apply sqrt_sqrt, ip_pos, P. Qed.

Lemma norm_pos q u : 0 <= norm q u.
Proof. apply sqrt_pos. Qed.

Lemma cauchy_schwarz q u v : nonnegative q -> ip q u v <= norm q u * norm q v.
Proof.
  intros P. set (A := ip q u u). set (B := ip q u v). set (C := ip q v v).
  assert (Q : forall s, 0 <= A - 2 * s * B + s * s * C).
  { intros s. pose proof (ip_pos q (fun x => 1 * u x + (- s) * v x) P) as H. rewrite ip_linear in H. rewrite (ip_comm q u), (ip_comm q v), !ip_linear in H.
    rewrite (ip_comm q v u) in H. fold A B C in H. lra. }
  assert (A0 : 0 <= A) by (apply ip_pos, P). assert (C0 : 0 <= C) by (apply ip_pos, P).
  unfold norm. fold A C. rewrite <- sqrt_mult by assumption.
  destruct (Rle_lt_dec B 0) as [N|N]; [apply Rle_trans with 0; [exact N|apply sqrt_pos]|].
  rewrite <- (sqrt_square B) by lra. apply sqrt_le_1_alt.
  destruct (Req_dec C 0) as [Z|Z].
  - exfalso. specialize (Q ((A + 1) / (2 * B))). rewrite Z in Q. replace (2 * ((A + 1) / (2 * B)) * B) with (A + 1) in Q by (field; lra). lra.
  - specialize (Q (B / C)). replace (A - 2 * (B / C) * B + B / C * (B / C) * C) with (A - B * B / C) in Q by (field; exact Z).
    assert (C1 : 0 < C) by lra. assert (H : B * B / C * C <= A * C) by (apply Rmult_le_compat_r; lra). replace (B * B / C * C) with (B * B) in H by (field; exact Z). exact H.
Qed.

Lemma norm_triangle q u v : nonnegative q -> norm q (fun x => u x + v x) <= norm q u + norm q v.
Proof.
  intros P. apply Rsqr_incr_0_var; [|apply Rplus_le_le_0_compat; apply norm_pos]. unfold Rsqr. rewrite norm_sq by exact P.
  pose proof (norm_sq q u P) as U. pose proof (norm_sq q v P) as V. pose proof (cauchy_schwarz q u v P) as C.
  rewrite (ip_ext q _ (fun x => 1 * u x + 1 * v x) _ (fun x => 1 * u x + 1 * v x)) by (intros; ring). rewrite ip_linear, (ip_comm q u), (ip_comm q v), !ip_linear, (ip_comm q v u). lra.
Qed.

Lemma norm_ext q u v : (forall x, u x = v x) -> norm q u = norm q v.
Proof. intros E. unfold norm. rewrite (ip_ext q u v u v E E). reflexivity. Qed.

Lemma norm_scale q c u : nonnegative q -> norm q (fun x => c * u x) = Rabs c * norm q u.
Proof.
  intros P. unfold norm. rewrite (ip_ext q _ (fun x => c * u x + 0 * u x) _ (fun x => c * u x + 0 * u x)) by (intros; ring). rewrite ip_linear, (ip_comm q u), !ip_linear.
  replace (c * (c * ip q u u + 0 * ip q u u) + 0 * (c * ip q u u + 0 * ip q u u)) with (c * c * ip q u u) by ring.
  rewrite sqrt_mult by (try apply Rle_0_sqr; apply ip_pos, P). f_equal. apply sqrt_Rsqr_abs.
Qed.

Lemma norm_bound q u M : nonnegative q -> 0 <= M -> (forall x, Rabs (u x) <= M) -> norm q u <= M * sqrt (volume q).
Proof.
  intros P M0 B. unfold norm, volume. rewrite <- (sqrt_Rsqr M M0). rewrite <- sqrt_mult; [|apply Rle_0_sqr|].
  - apply sqrt_le_1_alt. unfold ip. induction q as [|[w x] q IH]; cbn [weighted]; [lra|]. rewrite Rmult_plus_distr_l.
    assert (W : 0 <= w) by (apply (P w x); left; reflexivity). apply Rplus_le_compat; [|apply IH; intros w' x' I; apply (P w' x'); right; exact I].
    replace (Rsqr M * (w * 1)) with (w * Rsqr M) by ring. apply Rmult_le_compat_l; [exact W|]. change (u x * u x) with (Rsqr (u x)). apply Rsqr_le_abs_1. rewrite (Rabs_pos_eq M M0). apply B.
  - clear B M0. induction q as [|[w x] q IH]; cbn [weighted]; [lra|]. assert (W : 0 <= w) by (apply (P w x); left; reflexivity). assert (0 <= weighted q (fun _ => 1)) by (apply IH; intros w' x' I; apply (P w' x'); right; exact I). lra.
Qed.

(** Quadratic inequalities. *)
Lemma root_bound x y c : 0 <= y -> 0 <= c -> x * x <= y * y + c * x -> x <= y + c.
Proof.
  intros Y C H. destruct (Rle_lt_dec x (y + c)) as [L|L]; [exact L|]. exfalso.
  assert (A : y * y < (x - c) * x) by (apply Rle_lt_trans with (y * x); [apply Rmult_le_compat_l; lra|apply Rmult_lt_compat_r; lra]). lra.
Qed.

Section Energy.
Variable q : rule.
Hypothesis P : nonnegative q.

(** Implicit Euler: the norm grows by the perturbations at most. *)
Lemma euler_energy h (e rho : nat -> nat -> R) N : 0 < h ->
  (forall k, (k < N)%nat -> ip q (minus (e (S k)) (e k)) (e (S k)) <= h * ip q (rho k) (e (S k))) ->
  forall n, (n <= N)%nat -> norm q (e n) <= norm q (e 0%nat) + h * accumulated (fun j => norm q (rho j)) n.
Proof.
  intros H Eq n. induction n as [|n IH]; intros L; [cbn [accumulated]; lra|]. specialize (IH ltac:(lia)). specialize (Eq n ltac:(lia)). cbn [accumulated].
  set (Sm := accumulated _ n) in *.
  assert (Z : norm q (e (S n)) * norm q (e (S n)) <= (norm q (e n) + h * norm q (rho n)) * norm q (e (S n))).
  { rewrite norm_sq by exact P. unfold minus in Eq.
    rewrite (ip_ext q (fun x => e (S n) x - e n x) (fun x => 1 * e (S n) x + (-1) * e n x) (e (S n)) (e (S n))) in Eq by (intros; ring). rewrite ip_linear in Eq.
    pose proof (cauchy_schwarz q (e n) (e (S n)) P) as C1. pose proof (cauchy_schwarz q (rho n) (e (S n)) P) as C2.
    assert (C3 : h * ip q (rho n) (e (S n)) <= h * (norm q (rho n) * norm q (e (S n)))) by (apply Rmult_le_compat_l; lra). lra. }
  pose proof (norm_pos q (e (S n))) as N0. pose proof (norm_pos q (e n)) as N1. pose proof (norm_pos q (rho n)) as N2.
  assert (Z' : norm q (e (S n)) <= norm q (e n) + h * norm q (rho n)).
  { destruct (Req_dec (norm q (e (S n))) 0) as [E|E]; [rewrite E; assert (0 <= h * norm q (rho n)) by (apply Rmult_le_pos; lra); lra|].
    apply Rmult_le_reg_r with (norm q (e (S n))); [lra|exact Z]. }
  lra.
Qed.

(** BDF2: the energy of two levels. *)
Definition energy2 (e f : nat -> R) : R := ip q e e + ip q (fun x => 2 * e x - f x) (fun x => 2 * e x - f x).
Lemma energy2_pos e f : 0 <= energy2 e f.
Proof. apply Rplus_le_le_0_compat; apply ip_pos, P. Qed.

Definition before (s : nat -> R) (e : nat -> nat -> R) (k : nat) : nat -> R := match k with O => s | S j => e j end.

Lemma ip_expand a b c a' b' c' (u v w : nat -> R) : ip q (fun x => a * u x + b * v x + c * w x) (fun x => a' * u x + b' * v x + c' * w x) =
  a * a' * ip q u u + b * b' * ip q v v + c * c' * ip q w w + (a * b' + b * a') * ip q u v + (a * c' + c * a') * ip q u w + (b * c' + c * b') * ip q v w.
Proof.
  unfold ip. rewrite (weighted_ext q _ (fun x => a * a' * (u x * u x) + (b * b' * (v x * v x) + (c * c' * (w x * w x) + ((a * b' + b * a') * (u x * v x) + ((a * c' + c * a') * (u x * w x) + (b * c' + c * b') * (v x * w x))))))) by (intros; ring).
  rewrite !weighted_plus, !weighted_scale. ring.
Qed.

Lemma bdf2_energy h s (e rho : nat -> nat -> R) N : 0 < h ->
  (forall k, (k < N)%nat -> ip q (fun x => 3 * e (S k) x - 4 * e k x + before s e k x) (e (S k)) <= 2 * h * ip q (rho k) (e (S k))) ->
  forall n, (n <= N)%nat -> sqrt (energy2 (e n) (before s e n)) <= sqrt (energy2 (e 0%nat) s) + 4 * h * accumulated (fun j => norm q (rho j)) n.
Proof.
  intros H Eq n. induction n as [|n IH]; intros L; [cbn [before accumulated]; lra|]. specialize (IH ltac:(lia)). specialize (Eq n ltac:(lia)). cbn [accumulated].
  set (Sm := accumulated _ n) in *. change (before s e (S n)) with (e n).
  set (u := e (S n)) in *. set (v := e n) in *. set (w := before s e n) in *.
  assert (Id : 2 * ip q (fun x => 3 * u x - 4 * v x + w x) u = energy2 u v - energy2 v w + ip q (fun x => u x - 2 * v x + w x) (fun x => u x - 2 * v x + w x)).
  { unfold energy2.
    rewrite (ip_ext q (fun x => 3 * u x - 4 * v x + w x) (fun x => 3 * u x + (-4) * v x + 1 * w x) u (fun x => 1 * u x + 0 * v x + 0 * w x)) by (intros; ring).
    rewrite (ip_ext q (fun x => 2 * u x - v x) (fun x => 2 * u x + (-1) * v x + 0 * w x) _ (fun x => 2 * u x + (-1) * v x + 0 * w x)) by (intros; ring).
    rewrite (ip_ext q (fun x => 2 * v x - w x) (fun x => 0 * u x + 2 * v x + (-1) * w x) _ (fun x => 0 * u x + 2 * v x + (-1) * w x)) by (intros; ring).
    rewrite (ip_ext q (fun x => u x - 2 * v x + w x) (fun x => 1 * u x + (-2) * v x + 1 * w x) _ (fun x => 1 * u x + (-2) * v x + 1 * w x)) by (intros; ring).
    rewrite !ip_expand. ring. }
  pose proof (ip_pos q (fun x => u x - 2 * v x + w x) P) as D. pose proof (cauchy_schwarz q (rho n) u P) as C.
  assert (Nu : norm q u <= sqrt (energy2 u v)).
  { apply sqrt_le_1_alt. unfold energy2. pose proof (ip_pos q (fun x => 2 * u x - v x) P). lra. }
  pose proof (norm_pos q (rho n)) as N2.
  assert (C' : norm q (rho n) * norm q u <= norm q (rho n) * sqrt (energy2 u v)) by (apply Rmult_le_compat_l; assumption).
  assert (C4 : h * ip q (rho n) u <= h * (norm q (rho n) * sqrt (energy2 u v))) by (apply Rmult_le_compat_l; lra).
  assert (B : sqrt (energy2 u v) <= sqrt (energy2 v w) + 4 * h * norm q (rho n)).
  { apply root_bound; [apply sqrt_pos|apply Rmult_le_pos; [lra|exact N2]|]. rewrite !sqrt_sqrt by apply energy2_pos. lra. }
  lra.
Qed.
End Energy.

(** ** The equations of a run *)
Section Run.
Variables (h : R) (q : rule) (W : (nat -> R) -> Prop) (a : nat -> (nat -> R) -> (nat -> R) -> R) (r : nat -> nat -> R).
Variables (zero : nat -> R) (start : dict (nat -> R)) (var : string) (sols : list (string -> nat -> R)) (u0 : nat -> R).
Hypothesis U : NoDup (dkeys start).
Hypothesis S0 : dget start var = Some u0.

Lemma mass_sum d v : fold_right (fun wx s => fst wx * (d (snd wx) * v (snd wx)) + s) 0 q = ip q d v.
Proof. unfold ip. induction q as [|[w x] l IH]; cbn [fold_right weighted fst snd]; [reflexivity|rewrite IH; reflexivity]. Qed.

Lemma firstn_solution k j : (k <= length sols)%nat -> (j <= k)%nat ->
  solution u0 (map (fun s => s var) (firstn k sols)) j = solution u0 (map (fun s => s var) sols) j.
Proof.
  intros L J. destruct j as [|j]; [reflexivity|]. cbn [solution]. rewrite <- firstn_map.
  rewrite <- (firstn_skipn k (map (fun s => s var) sols)) at 2. rewrite app_nth1; [reflexivity|]. rewrite firstn_length, map_length. lia.
Qed.

Notation u := (solution u0 (map (fun s => s var) sols)).

Lemma solution_next k sol : nth_error sols k = Some sol -> u (S k) = sol var.
Proof. intros N. cbn [solution]. apply nth_error_nth. rewrite nth_error_map, N. reflexivity. Qed.

Lemma euler_equation : marches ImplicitEuler h q W a r zero start var sols ->
  forall k, (k < length sols)%nat -> W (u (S k)) /\
    forall v, W v -> ip q (fun x => (u (S k) x - u k x) / h) v + a k (u (S k)) v = ip q (r k) v.
Proof.
  intros Mr k L. destruct (nth_error sols k) as [sol|] eqn:N; [|apply nth_error_None in N; lia].
  destruct (Mr k sol N) as (Wk & g0 & g & gv & I0 & I1 & G & E). rewrite (solution_next k sol N). split; [exact Wk|]. intros v Wv.
  destruct (E v Wv) as (T & TE & Eq).
  destruct (c04_implicit_euler zero start (firstn k sols) U) as (g0' & g' & J0 & J1 & Lv).
  cbn [time_levels] in I0, I1. rewrite J0 in I0. apply (f_equal (fun z => match z with Ok x => x | Err _ => g0 end)) in I0. cbn in I0. subst g0'.
  rewrite J1 in I1. apply (f_equal (fun z => match z with Ok x => x | Err _ => g end)) in I1. cbn in I1. subst g'.
  destruct (Lv var u0 S0) as (gv' & G' & Ln & _). rewrite G in G'. apply (f_equal (fun z => match z with Some x => x | None => gv end)) in G'. cbn in G'. subst gv'.
  rewrite firstn_length, (Nat.min_l k (length sols) (Nat.lt_le_incl _ _ L)), firstn_solution in Ln by lia.
  unfold temporal_form, get_time_derivative, level in TE. rewrite dget_dset_same, dget_dset_other in TE by discriminate. rewrite Ln in TE. cbn [bind] in TE.
  apply (f_equal (fun z => match z with Ok x => x | Err _ => 0 end)) in TE. cbn beta iota in TE. rewrite <- Eq, <- TE. f_equal. symmetry. exact (mass_sum (fun x => ie_derivative h (sol var x) (u k x)) v).
Qed.

Lemma bdf2_equation : marches BDF2 h q W a r zero start var sols ->
  forall k, (k < length sols)%nat -> W (u (S k)) /\
    forall v, W v -> ip q (fun x => (3 * u (S k) x - 4 * u k x + u (k - 1)%nat x) / (2 * h)) v + a k (u (S k)) v = ip q (r k) v.
Proof.
  intros Mr k L. destruct (nth_error sols k) as [sol|] eqn:N; [|apply nth_error_None in N; lia].
  destruct (Mr k sol N) as (Wk & g0 & g & gv & I0 & I1 & G & E). rewrite (solution_next k sol N). split; [exact Wk|]. intros v Wv.
  destruct (E v Wv) as (T & TE & Eq).
  destruct (c04_bdf2 zero start (firstn k sols) U) as (g0' & g' & J0 & J1 & Lv).
  cbn [time_levels] in I0, I1. rewrite J0 in I0. apply (f_equal (fun z => match z with Ok x => x | Err _ => g0 end)) in I0. cbn in I0. subst g0'.
  rewrite J1 in I1. apply (f_equal (fun z => match z with Ok x => x | Err _ => g end)) in I1. cbn in I1. subst g'.
  destruct (Lv var u0 S0) as (gv' & G' & Lp & Ln & _). rewrite G in G'. apply (f_equal (fun z => match z with Some x => x | None => gv end)) in G'. cbn in G'. subst gv'.
  rewrite firstn_length, (Nat.min_l k (length sols) (Nat.lt_le_incl _ _ L)), firstn_solution in Ln, Lp by lia.
  unfold temporal_form, get_time_derivative, level in TE. rewrite dget_dset_same, !dget_dset_other in TE by discriminate. rewrite Ln, Lp in TE. cbn [bind] in TE.
  apply (f_equal (fun z => match z with Ok x => x | Err _ => 0 end)) in TE. cbn beta iota in TE. rewrite <- Eq, <- TE. f_equal. symmetry. exact (mass_sum (fun x => bdf2_derivative h (sol var x) (u k x) (u (k - 1)%nat x)) v).
Qed.
End Run.

Lemma accumulated_le f g n : (forall k, (k < n)%nat -> f k <= g k) -> accumulated f n <= accumulated g n.
Proof. induction n as [|n IH]; intros H; cbn [accumulated]; [lra|]. pose proof (IH (fun k L => H k (Nat.lt_trans _ _ _ L (Nat.lt_succ_diag_r n)))). specialize (H n (Nat.lt_succ_diag_r n)). lra. Qed.
Lemma accumulated_const c n : accumulated (fun _ => c) n = INR n * c.
Proof. induction n as [|n IH]; [cbn; lra|]. cbn [accumulated]. rewrite IH, S_INR. ring. Qed.

Lemma ip_sub q u v w : ip q u w - ip q v w = ip q (minus u v) w.
Proof. unfold minus. rewrite (ip_ext q (fun x => u x - v x) (fun x => 1 * u x + (-1) * v x) w w) by (intros; ring). rewrite ip_linear. ring. Qed.
Lemma ip_div q u v c : ip q (fun x => u x / c) v = ip q u v / c.
Proof. rewrite (ip_ext q (fun x => u x / c) (fun x => / c * u x + 0 * u x) v v) by (intros; unfold Rdiv; ring). rewrite ip_linear. unfold Rdiv. ring. Qed.

(** ** Stability: two runs of the same problem *)
Theorem c72_euler_stable : forall h q W a zero start start' var sols sols' u0 u0' r r',
  0 < h -> nonnegative q -> subspace W -> dissipative W a ->
  NoDup (dkeys start) -> NoDup (dkeys start') -> dget start var = Some u0 -> dget start' var = Some u0' ->
  marches ImplicitEuler h q W a r zero start var sols -> marches ImplicitEuler h q W a r' zero start' var sols' ->
  forall n, (n <= length sols)%nat -> (n <= length sols')%nat ->
    norm q (minus (solution u0 (map (fun s => s var) sols) n) (solution u0' (map (fun s => s var) sols') n)) <=
      norm q (minus u0 u0') + h * accumulated (fun k => norm q (minus (r k) (r' k))) n.
Proof.
  intros h q W a zero start start' var sols sols' u0 u0' r r' H P Sb D N N' S S' M M' n L L'.
  set (u := solution u0 (map (fun s => s var) sols)). set (v := solution u0' (map (fun s => s var) sols')).
  apply (euler_energy q P h (fun k => minus (u k) (v k)) (fun k => minus (r k) (r' k)) n H); [|lia]. intros k K.
  destruct (euler_equation h q W a r zero start var sols u0 N S M k ltac:(lia)) as [Wu Eu]. destruct (euler_equation h q W a r' zero start' var sols' u0' N' S' M' k ltac:(lia)) as [Wv Ev].
  fold u in Wu, Eu. fold v in Wv, Ev. set (e := minus (u (Datatypes.S k)) (v (Datatypes.S k))) in *. assert (We : W e) by (apply Sb; assumption).
  specialize (Eu e We). specialize (Ev e We). specialize (D k _ _ Wu Wv). fold e in D. rewrite ip_div in Eu, Ev.
  pose proof (ip_sub q (r k) (r' k) e) as R1. pose proof (ip_sub q (fun x => u (Datatypes.S k) x - u k x) (fun x => v (Datatypes.S k) x - v k x) e) as R2.
  rewrite (ip_ext q (minus e (minus (u k) (v k))) (minus (fun x => u (Datatypes.S k) x - u k x) (fun x => v (Datatypes.S k) x - v k x)) e e) by (intros; unfold e, minus; ring).
  rewrite <- R1, <- R2, <- Eu, <- Ev.
  set (X := ip q (fun x => u (Datatypes.S k) x - u k x) e). set (Y := ip q (fun x => v (Datatypes.S k) x - v k x) e).
  replace (h * (X / h + a k (u (Datatypes.S k)) e - (Y / h + a k (v (Datatypes.S k)) e))) with (X - Y + h * (a k (u (Datatypes.S k)) e - a k (v (Datatypes.S k)) e)) by (field; lra).
  pose proof (Rmult_le_pos h _ (Rlt_le _ _ H) D). lra.
Qed.
Print Assumptions c72_euler_stable.

Theorem c72_bdf2_stable : forall h q W a zero start start' var sols sols' u0 u0' r r',
  0 < h -> nonnegative q -> subspace W -> dissipative W a ->
  NoDup (dkeys start) -> NoDup (dkeys start') -> dget start var = Some u0 -> dget start' var = Some u0' ->
  marches BDF2 h q W a r zero start var sols -> marches BDF2 h q W a r' zero start' var sols' ->
  forall n, (n <= length sols)%nat -> (n <= length sols')%nat ->
    norm q (minus (solution u0 (map (fun s => s var) sols) n) (solution u0' (map (fun s => s var) sols') n)) <=
      sqrt 2 * norm q (minus u0 u0') + 4 * h * accumulated (fun k => norm q (minus (r k) (r' k))) n.
Proof.
  intros h q W a zero start start' var sols sols' u0 u0' r r' H P Sb D N N' S S' M M' n L L'.
  set (u := solution u0 (map (fun s => s var) sols)). set (v := solution u0' (map (fun s => s var) sols')).
  set (e := fun k => minus (u k) (v k)).
  assert (B : sqrt (energy2 q (e n) (before (e 0%nat) e n)) <= sqrt (energy2 q (e 0%nat) (e 0%nat)) + 4 * h * accumulated (fun k => norm q (minus (r k) (r' k))) n).
  { apply (bdf2_energy q P h (e 0%nat) e (fun k => minus (r k) (r' k)) n H); [|lia]. intros k K.
    destruct (bdf2_equation h q W a r zero start var sols u0 N S M k ltac:(lia)) as [Wu Eu]. destruct (bdf2_equation h q W a r' zero start' var sols' u0' N' S' M' k ltac:(lia)) as [Wv Ev].
    fold u in Wu, Eu. fold v in Wv, Ev. assert (We : W (e (Datatypes.S k))) by (apply Sb; assumption).
    specialize (Eu _ We). specialize (Ev _ We). specialize (D k _ _ Wu Wv). fold (e (Datatypes.S k)) in D. rewrite ip_div in Eu, Ev.
    set (fu := fun x => 3 * u (Datatypes.S k) x - 4 * u k x + u (k - 1)%nat x) in *. set (fv := fun x => 3 * v (Datatypes.S k) x - 4 * v k x + v (k - 1)%nat x) in *.
    rewrite (ip_ext q _ (minus fu fv) (e (Datatypes.S k)) (e (Datatypes.S k))); [|intros x; unfold fu, fv, e, minus; destruct k as [|k]; cbn [before]; [cbn [Nat.sub]; ring|replace (Datatypes.S k - 1)%nat with k by lia; ring]|reflexivity].
    rewrite <- (ip_sub q fu fv), <- (ip_sub q (r k) (r' k)), <- Eu, <- Ev.
    set (X := ip q fu (e (Datatypes.S k))). set (Y := ip q fv (e (Datatypes.S k))). set (A := a k (u (Datatypes.S k)) (e (Datatypes.S k))) in *. set (A' := a k (v (Datatypes.S k)) (e (Datatypes.S k))) in *.
    replace (2 * h * (X / (2 * h) + A - (Y / (2 * h) + A'))) with (X - Y + 2 * h * (A - A')) by (field; lra).
    assert (0 <= 2 * h * (A - A')) by (apply Rmult_le_pos; lra). lra. }
  assert (C : norm q (e n) <= sqrt (energy2 q (e n) (before (e 0%nat) e n))).
  { apply sqrt_le_1_alt. unfold energy2. pose proof (ip_pos q (fun x => 2 * e n x - before (e 0%nat) e n x) P). lra. }
  assert (Z : sqrt (energy2 q (e 0%nat) (e 0%nat)) = sqrt 2 * norm q (minus u0 u0')).
  { unfold norm. rewrite <- sqrt_mult by (try lra; apply ip_pos, P). f_equal. unfold energy2. rewrite (ip_ext q (fun x => 2 * e 0%nat x - e 0%nat x) (e 0%nat) _ (e 0%nat)) by (intros; ring). change (e 0%nat) with (minus u0 u0'). ring. }
  rewrite Z in B. change (norm q (e n) <= sqrt 2 * norm q (minus u0 u0') + 4 * h * accumulated (fun k => norm q (minus (r k) (r' k))) n). lra.
Qed.
Print Assumptions c72_bdf2_stable.

(** ** Accuracy: a run against an exact solution *)
Lemma lag_level t0 h k : t0 + INR (S k) * h = t0 + INR k * h + h.
Proof. rewrite S_INR. ring. Qed.

Lemma norm_minus q u v : nonnegative q -> norm q (minus u v) <= norm q u + norm q v.
Proof.
  intros P. unfold minus. rewrite (norm_ext q _ (fun x => u x + (-1) * v x)) by (intros; ring). eapply Rle_trans; [apply (norm_triangle q u (fun x => (-1) * v x) P)|].
  rewrite (norm_scale q (-1) v P). rewrite Rabs_left by lra. lra.
Qed.

Lemma accumulated_bound q (rho : nat -> nat -> R) c n : (forall k, (k < n)%nat -> norm q (rho k) <= c) -> accumulated (fun k => norm q (rho k)) n <= INR n * c.
Proof. intros H. rewrite <- accumulated_const. apply accumulated_le. exact H. Qed.

Theorem c72_euler_accuracy : forall h q W a zero start var sols u0 r t0 U M delta,
  0 < h -> nonnegative q -> subspace W -> dissipative W a ->
  NoDup (dkeys start) -> dget start var = Some u0 ->
  marches ImplicitEuler h q W a r zero start var sols -> (forall k, norm q (r k) <= delta) ->
  exact_solution q W a t0 h U -> 0 <= M -> smooth 2 M t0 U ->
  forall n, (n <= length sols)%nat ->
    norm q (minus (solution u0 (map (fun s => s var) sols) n) (U (t0 + INR n * h))) <=
      norm q (minus u0 (U t0)) + INR n * h * (h / 2 * M * sqrt (volume q) + delta).
Proof.
  intros h q W a zero start var sols u0 r t0 U M delta H P Sb D N S0 Mr Rb Ex M0 Sm n L.
  set (u := solution u0 (map (fun s => s var) sols)).
  set (e := fun k => minus (u k) (U (t0 + INR k * h))).
  set (tau := fun k x => ie_derivative h (U (t0 + INR (S k) * h) x) (U (t0 + INR k * h) x) - Derive (fun t => U t x) (t0 + INR (S k) * h)).
  assert (B : norm q (e n) <= norm q (e 0%nat) + h * accumulated (fun k => norm q (minus (r k) (tau k))) n).
  { apply (euler_energy q P h e (fun k => minus (r k) (tau k)) n H); [|lia]. intros k K.
    destruct (euler_equation h q W a r zero start var sols u0 N S0 Mr k ltac:(lia)) as [Wu Eu]. fold u in Wu, Eu. destruct (Ex k) as [WU EU].
    assert (We : W (e (S k))) by (apply Sb; assumption). specialize (Eu _ We). specialize (EU _ We). specialize (D k _ _ Wu WU). fold (e (S k)) in D. rewrite ip_div in Eu.
    set (fu := fun x => u (S k) x - u k x) in *. set (fU := fun x => U (t0 + INR (S k) * h) x - U (t0 + INR k * h) x).
    rewrite (ip_ext q (minus (e (S k)) (e k)) (minus fu fU) (e (S k)) (e (S k))) by (intros; unfold e, fu, fU, minus; ring).
    rewrite <- (ip_sub q fu fU), <- (ip_sub q (r k) (tau k)), <- Eu.
    assert (T : ip q (tau k) (e (S k)) = ip q fU (e (S k)) / h - ip q (fun x => Derive (fun t => U t x) (t0 + INR (S k) * h)) (e (S k))).
    { rewrite <- ip_div, ip_sub. reflexivity. }
    rewrite T. set (X := ip q fu (e (S k))) in *. set (Y := ip q fU (e (S k))) in *. set (A := a k (u (S k)) (e (S k))) in *. set (A' := a k (U (t0 + INR (S k) * h)) (e (S k))) in *.
    set (Dv := ip q (fun x => Derive (fun t => U t x) (t0 + INR (S k) * h)) (e (S k))) in *. assert (Dv = - A') as -> by lra.
    replace (h * (X / h + A - (Y / h - - A'))) with (X - Y + h * (A - A')) by (field; lra).
    pose proof (Rmult_le_pos h _ (Rlt_le _ _ H) D). lra. }
  assert (Z : forall k, norm q (minus (r k) (tau k)) <= h / 2 * M * sqrt (volume q) + delta).
  { intros k. eapply Rle_trans; [apply norm_minus, P|]. specialize (Rb k).
    assert (norm q (tau k) <= h / 2 * M * sqrt (volume q)).
    { apply norm_bound; [exact P|apply Rmult_le_pos; lra|]. intros x. unfold tau. rewrite lag_level. destruct (Sm x) as [Ex1 Bd].
      apply (c05_implicit_euler_first_order (fun t => U t x) (t0 + INR k * h) h M H Ex1). intros s Hs. apply Bd. pose proof (Rmult_le_pos (INR k) h (pos_INR k) (Rlt_le _ _ H)). lra. }
    lra. }
  pose proof (accumulated_bound q (fun k => minus (r k) (tau k)) _ n (fun k _ => Z k)) as Ac.
  apply (Rmult_le_compat_l h) in Ac; [|lra].
  assert (E0 : norm q (e 0%nat) = norm q (minus u0 (U t0))) by (apply norm_ext; intros x; unfold e, minus; cbn [INR u solution]; replace (t0 + 0 * h) with t0 by ring; reflexivity).
  rewrite E0 in B. change (norm q (e n) <= norm q (minus u0 (U t0)) + INR n * h * (h / 2 * M * sqrt (volume q) + delta)). lra.
Qed.
Print Assumptions c72_euler_accuracy.

Theorem c72_bdf2_accuracy : forall h q W a zero start var sols u0 r t0 U M delta,
  0 < h -> nonnegative q -> subspace W -> dissipative W a ->
  NoDup (dkeys start) -> dget start var = Some u0 ->
  marches BDF2 h q W a r zero start var sols -> (forall k, norm q (r k) <= delta) ->
  exact_solution q W a t0 h U -> 0 <= M -> smooth 3 M (t0 - h) U ->
  forall n, (n <= length sols)%nat ->
    norm q (minus (solution u0 (map (fun s => s var) sols) n) (U (t0 + INR n * h))) <=
      2 * norm q (minus u0 (U t0)) + norm q (minus (U t0) (U (t0 - h))) + 4 * (INR n * h) * (h ^ 2 * M * sqrt (volume q) + delta).
Proof.
  intros h q W a zero start var sols u0 r t0 U M delta H P Sb D N S0 Mr Rb Ex M0 Sm n L.
  set (u := solution u0 (map (fun s => s var) sols)).
  set (V := fun k : nat => U (t0 + INR k * h)).
  set (e := fun k => minus (u k) (V k)). set (s := minus u0 (U (t0 - h))).
  set (Vp := fun k => match k with O => U (t0 - h) | S j => V j end).
  set (tau := fun k x => bdf2_derivative h (V (S k) x) (V k x) (Vp k x) - Derive (fun t => U t x) (t0 + INR (S k) * h)).
  assert (B : sqrt (energy2 q (e n) (before s e n)) <= sqrt (energy2 q (e 0%nat) s) + 4 * h * accumulated (fun k => norm q (minus (r k) (tau k))) n).
  { apply (bdf2_energy q P h s e (fun k => minus (r k) (tau k)) n H); [|lia]. intros k K.
    destruct (bdf2_equation h q W a r zero start var sols u0 N S0 Mr k ltac:(lia)) as [Wu Eu]. fold u in Wu, Eu. destruct (Ex k) as [WU EU]. change (U (t0 + INR (S k) * h)) with (V (S k)) in *.
    assert (We : W (e (S k))) by (apply Sb; assumption). specialize (Eu _ We). specialize (EU _ We). specialize (D k _ _ Wu WU). fold (e (S k)) in D. rewrite ip_div in Eu.
    set (fu := fun x => 3 * u (S k) x - 4 * u k x + u (k - 1)%nat x) in *. set (fU := fun x => 3 * V (S k) x - 4 * V k x + Vp k x).
    rewrite (ip_ext q _ (minus fu fU) (e (S k)) (e (S k))); [|intros x; unfold fu, fU, e, s, minus, before, Vp; destruct k as [|k]; [cbn [Nat.sub]; change (u 0%nat) with u0; ring|replace (S k - 1)%nat with k by lia; ring]|reflexivity].
    rewrite <- (ip_sub q fu fU), <- (ip_sub q (r k) (tau k)), <- Eu.
    assert (T : ip q (tau k) (e (S k)) = ip q fU (e (S k)) / (2 * h) - ip q (fun x => Derive (fun t => U t x) (t0 + INR (S k) * h)) (e (S k))).
    { rewrite <- ip_div, ip_sub. reflexivity. }
    rewrite T. set (X := ip q fu (e (S k))) in *. set (Y := ip q fU (e (S k))) in *. set (A := a k (u (S k)) (e (S k))) in *. set (A' := a k (V (S k)) (e (S k))) in *.
    set (Dv := ip q (fun x => Derive (fun t => U t x) (t0 + INR (S k) * h)) (e (S k))) in *. assert (Dv = - A') as -> by lra.
    replace (2 * h * (X / (2 * h) + A - (Y / (2 * h) - - A'))) with (X - Y + 2 * h * (A - A')) by (field; lra).
    assert (0 <= 2 * h * (A - A')) by (apply Rmult_le_pos; lra). lra. }
  assert (Z : forall k, norm q (minus (r k) (tau k)) <= h ^ 2 * M * sqrt (volume q) + delta).
  { intros k. eapply Rle_trans; [apply norm_minus, P|]. specialize (Rb k).
    assert (norm q (tau k) <= h ^ 2 * M * sqrt (volume q)).
    { apply norm_bound; [exact P|apply Rmult_le_pos; [apply pow2_ge_0|exact M0]|]. intros x. unfold tau, V. rewrite lag_level. destruct (Sm x) as [Ex1 Bd].
      assert (Vp k x = U (t0 + INR k * h - h) x) as ->.
      { unfold Vp, V. destruct k as [|k]; [cbn [INR]; f_equal; ring|rewrite S_INR; f_equal; ring]. }
      apply (c05_bdf2_second_order (fun t => U t x) (t0 + INR k * h) h M H Ex1). intros t Ht. apply Bd. pose proof (Rmult_le_pos (INR k) h (pos_INR k) (Rlt_le _ _ H)). lra. }
    lra. }
  pose proof (accumulated_bound q (fun k => minus (r k) (tau k)) _ n (fun k _ => Z k)) as Ac.
  apply (Rmult_le_compat_l h) in Ac; [|lra].
  assert (C : norm q (e n) <= sqrt (energy2 q (e n) (before s e n))).
  { apply sqrt_le_1_alt. unfold energy2. pose proof (ip_pos q (fun x => 2 * e n x - before s e n x) P). lra. }
  assert (E0 : forall x, e 0%nat x = minus u0 (U t0) x) by (intros x; unfold e, V, minus; cbn [INR]; replace (t0 + 0 * h) with t0 by ring; reflexivity).
  assert (G : sqrt (energy2 q (e 0%nat) s) <= 2 * norm q (minus u0 (U t0)) + norm q (minus (U t0) (U (t0 - h)))).
  { set (b := fun x => 2 * e 0%nat x - s x).
    assert (G1 : sqrt (energy2 q (e 0%nat) s) <= norm q (e 0%nat) + norm q b).
    { apply Rsqr_incr_0_var; [|apply Rplus_le_le_0_compat; apply norm_pos]. unfold Rsqr. rewrite sqrt_sqrt by apply (energy2_pos q P). unfold energy2. fold b.
      rewrite <- (norm_sq q (e 0%nat) P), <- (norm_sq q b P). pose proof (Rmult_le_pos _ _ (norm_pos q (e 0%nat)) (norm_pos q b)). lra. }
    rewrite (norm_ext q (e 0%nat) _ E0) in G1.
    rewrite (norm_ext q b (minus (minus u0 (U t0)) (minus (U t0) (U (t0 - h))))) in G1 by (intros x; unfold b; rewrite E0; unfold s, minus; ring).
    pose proof (norm_minus q (minus u0 (U t0)) (minus (U t0) (U (t0 - h))) P). lra. }
  change (norm q (e n) <= 2 * norm q (minus u0 (U t0)) + norm q (minus (U t0) (U (t0 - h))) + 4 * (INR n * h) * (h ^ 2 * M * sqrt (volume q) + delta)).
  eapply Rle_trans; [exact C|]. eapply Rle_trans; [exact B|]. lra.
Qed.
Print Assumptions c72_bdf2_accuracy.

(** Second order when the exact solution starts at rest. *)
Theorem c72_bdf2_second_order : forall h q W a zero start var sols u0 r t0 U M2 M3 delta,
  0 < h -> nonnegative q -> subspace W -> dissipative W a ->
  NoDup (dkeys start) -> dget start var = Some u0 ->
  marches BDF2 h q W a r zero start var sols -> (forall k, norm q (r k) <= delta) ->
  exact_solution q W a t0 h U -> 0 <= M2 -> smooth 2 M2 (t0 - h) U -> 0 <= M3 -> smooth 3 M3 (t0 - h) U ->
  (forall x, Derive (fun t => U t x) t0 = 0) ->
  forall n, (n <= length sols)%nat ->
    norm q (minus (solution u0 (map (fun s => s var) sols) n) (U (t0 + INR n * h))) <=
      2 * norm q (minus u0 (U t0)) + h ^ 2 * (M2 / 2 * sqrt (volume q)) + 4 * (INR n * h) * (h ^ 2 * M3 * sqrt (volume q) + delta).
Proof.
  intros h q W a zero start var sols u0 r t0 U M2 M3 delta H P Sb D N S0 Mr Rb Ex A2 Sm2 A3 Sm3 Rest n L.
  pose proof (c72_bdf2_accuracy h q W a zero start var sols u0 r t0 U M3 delta H P Sb D N S0 Mr Rb Ex A3 Sm3 n L) as B.
  assert (norm q (minus (U t0) (U (t0 - h))) <= h ^ 2 * (M2 / 2) * sqrt (volume q)).
  { apply norm_bound; [exact P|apply Rmult_le_pos; [apply pow2_ge_0|lra]|]. intros x. destruct (Sm2 x) as [E2 B2].
    pose proof (c05_implicit_euler_first_order (fun t => U t x) (t0 - h) h M2 H E2 ltac:(intros; apply B2; lra)) as I. cbn beta in I.
    replace (t0 - h + h) with t0 in I by ring. rewrite Rest in I. unfold ie_derivative in I. unfold minus.
    replace (U t0 x - U (t0 - h) x) with (h * ((U t0 x - U (t0 - h) x) / h - 0)) by (field; lra). rewrite Rabs_mult, (Rabs_pos_eq h) by lra.
    replace (h ^ 2 * (M2 / 2)) with (h * (h / 2 * M2)) by field. apply Rmult_le_compat_l; lra. }
  lra.
Qed.
Print Assumptions c72_bdf2_second_order.

(** ** Runs exist exactly when their equations hold *)
Lemma euler_marches h q W a r zero start var sols u0 : NoDup (dkeys start) -> dget start var = Some u0 ->
  (forall k, (k < length sols)%nat -> W (solution u0 (map (fun s => s var) sols) (S k)) /\
    forall v, W v -> ip q (fun x => (solution u0 (map (fun s => s var) sols) (S k) x - solution u0 (map (fun s => s var) sols) k x) / h) v + a k (solution u0 (map (fun s => s var) sols) (S k)) v = ip q (r k) v) ->
  marches ImplicitEuler h q W a r zero start var sols.
Proof.
  intros N S0 E k sol Nk. assert (L : (k < length sols)%nat) by (apply nth_error_Some; rewrite Nk; discriminate).
  destruct (E k L) as [Wk Ek]. rewrite (solution_next var sols u0 k sol Nk) in Wk, Ek. split; [exact Wk|].
  destruct (c04_implicit_euler zero start (firstn k sols) N) as (g0 & g & J0 & J1 & Lv). destruct (Lv var u0 S0) as (gv & G & Ln & _).
  rewrite firstn_length, (Nat.min_l k (length sols) (Nat.lt_le_incl _ _ L)), firstn_solution in Ln by lia.
  exists g0, g, gv. repeat split; try assumption. intros v Wv. eexists. split; [|exact (Ek v Wv)].
  unfold temporal_form, get_time_derivative, level. rewrite dget_dset_same, dget_dset_other by discriminate. rewrite Ln. cbn [bind]. f_equal.
  exact (mass_sum q (fun x => ie_derivative h (sol var x) (solution u0 (map (fun s => s var) sols) k x)) v).
Qed.

Lemma bdf2_marches h q W a r zero start var sols u0 : NoDup (dkeys start) -> dget start var = Some u0 ->
  (forall k, (k < length sols)%nat -> W (solution u0 (map (fun s => s var) sols) (S k)) /\
    forall v, W v -> ip q (fun x => (3 * solution u0 (map (fun s => s var) sols) (S k) x - 4 * solution u0 (map (fun s => s var) sols) k x + solution u0 (map (fun s => s var) sols) (k - 1)%nat x) / (2 * h)) v + a k (solution u0 (map (fun s => s var) sols) (S k)) v = ip q (r k) v) ->
  marches BDF2 h q W a r zero start var sols.
Proof.
  intros N S0 E k sol Nk. assert (L : (k < length sols)%nat) by (apply nth_error_Some; rewrite Nk; discriminate).
  destruct (E k L) as [Wk Ek]. rewrite (solution_next var sols u0 k sol Nk) in Wk, Ek. split; [exact Wk|].
  destruct (c04_bdf2 zero start (firstn k sols) N) as (g0 & g & J0 & J1 & Lv). destruct (Lv var u0 S0) as (gv & G & Lp & Ln & _).
  rewrite firstn_length, (Nat.min_l k (length sols) (Nat.lt_le_incl _ _ L)), firstn_solution in Ln, Lp by lia.
  exists g0, g, gv. repeat split; try assumption. intros v Wv. eexists. split; [|exact (Ek v Wv)].
  unfold temporal_form, get_time_derivative, level. rewrite dget_dset_same, !dget_dset_other by discriminate. rewrite Ln, Lp. cbn [bind]. f_equal.
  exact (mass_sum q (fun x => bdf2_derivative h (sol var x) (solution u0 (map (fun s => s var) sols) k x) (solution u0 (map (fun s => s var) sols) (k - 1)%nat x)) v).
Qed.

(** A run given by the list of its values. *)
Definition values (f : nat -> R) (n : nat) : list (string -> nat -> R) := map (fun j _ _ => f (S j)) (seq 0 n).
Lemma values_solution f n k : (k <= n)%nat -> solution (fun _ => f 0%nat) (map (fun s => s "U"%string) (values f n)) k 0%nat = f k.
Proof.
  intros L. destruct k as [|k]; [reflexivity|]. cbn [solution]. unfold values. rewrite map_map.
  rewrite (nth_indep _ _ ((fun j (_ : nat) => f (S j)) 0%nat)) by (rewrite map_length, seq_length; lia).
  rewrite (map_nth (fun j (_ : nat) => f (S j))), seq_nth by lia. reflexivity.
Qed.
Lemma values_length f n : length (values f n) = n.
Proof. unfold values. rewrite map_length, seq_length. reflexivity. Qed.

Definition point : rule := [(1, 0%nat)].
Lemma point_ip u v : ip point u v = u 0%nat * v 0%nat.
Proof. unfold ip, point. cbn [weighted]. ring. Qed.
Lemma point_nonnegative : nonnegative point.
Proof. intros w x [E|[]]. injection E as <- <-. lra. Qed.

Lemma linear_derive_n b k s : is_derive_n (fun t => b * t) (S k) s (match k with O => b | S _ => 0 end).
Proof.
  revert s. induction k as [|k IH]; intros s.
  - change (is_derive (fun t => b * t) s b). auto_derive; [exact I|ring].
  - change (is_derive (Derive_n (fun t => b * t) (S k)) s 0). apply (is_derive_ext (fun _ => match k with O => b | S _ => 0 end)).
    + intros t. symmetry. apply is_derive_n_unique, IH.
    + auto_derive; [exact I|ring].
Qed.

(** The slope of a linear solution is reproduced only in the limit: an error of first order remains for ever. *)
Theorem c72_bdf2_startup_refuted : forall b h n, 0 < h ->
  let W := fun _ : nat -> R => True in let a := fun (_ : nat) (_ v : nat -> R) => - (b * v 0%nat) in
  let U := fun t (_ : nat) => b * t in
  exists sols, length sols = n /\ dissipative W a /\ marches BDF2 h point W a (fun _ _ => 0) (fun _ => 0) [("U"%string, fun _ => 0)] "U" sols /\
    exact_solution point W a 0 h U /\ smooth 3 0 (0 - h) U /\
    forall k, (k <= n)%nat -> solution (fun _ => 0) (map (fun s => s "U"%string) sols) k 0%nat - U (0 + INR k * h) 0%nat = - (b * h / 2 * (1 - (1 / 3) ^ k)).
Proof.
  intros b h n H W a U. set (f := fun k => b * (INR k * h) - b * h / 2 * (1 - (1 / 3) ^ k)).
  assert (F0 : f 0%nat = 0) by (unfold f; cbn [INR pow]; field).
  assert (V : forall k, (k <= n)%nat -> solution (fun _ : nat => 0) (map (fun s => s "U"%string) (values f n)) k 0%nat = f k).
  { intros k L. rewrite <- (values_solution f n k L). rewrite F0. reflexivity. }
  assert (DU : forall t x, is_derive (fun s => U s x) t b) by (intros t x; unfold U; auto_derive; [exact I|ring]).
  exists (values f n). split; [apply values_length|]. split; [intros k u v _ _; unfold a; lra|]. split; [|split; [|split]].
  - apply bdf2_marches with (u0 := fun _ => 0); [repeat constructor; intros []|reflexivity|]. rewrite values_length. intros k L. split; [exact I|]. intros v _. rewrite !point_ip, !V by lia. unfold a, f.
    destruct k as [|k]; [cbn [Nat.sub INR pow]; field; lra|]. replace (S k - 1)%nat with k by lia. rewrite !S_INR. cbn [pow]. field. lra.
  - intros k. split; [exact I|]. intros v _. rewrite point_ip. unfold a. rewrite (is_derive_unique _ _ _ (DU _ _)). ring.
  - intros x. split.
    + intros t k _. destruct k as [|k]; [exact I|]. eexists. exact (linear_derive_n b k t).
    + intros t _. assert (E : Derive_n (fun s => U s x) 3 t = 0) by (apply (is_derive_n_unique _ 3), (linear_derive_n b 2 t)). rewrite E, Rabs_R0. apply Rle_refl.
  - intros k L. rewrite V by exact L. unfold f, U. ring.
Qed.
Print Assumptions c72_bdf2_startup_refuted.

(** No constant bounds the error at the time 1 by the square of the step. *)
Theorem c72_bdf2_second_order_refuted : forall C, exists n : nat, (0 < n)%nat /\
  let h := / INR n in let W := fun _ : nat -> R => True in let a := fun (_ : nat) (_ v : nat -> R) => - (1 * v 0%nat) in
  let U := fun t (_ : nat) => 1 * t in
  exists sols, length sols = n /\ dissipative W a /\ marches BDF2 h point W a (fun _ _ => 0) (fun _ => 0) [("U"%string, fun _ => 0)] "U" sols /\
    exact_solution point W a 0 h U /\ smooth 3 0 (0 - h) U /\ 0 + INR n * h = 1 /\
    C * h ^ 2 < norm point (minus (solution (fun _ => 0) (map (fun s => s "U"%string) sols) n) (U (0 + INR n * h))).
Proof.
  intros C. destruct (archimed_cor1 (/ (3 * (Rabs C + 1)))) as (n & L & N0).
  { apply Rinv_0_lt_compat. pose proof (Rabs_pos C). lra. }
  assert (P : 0 < INR n) by (apply lt_0_INR; exact N0). exists n. split; [exact N0|]. intros h W a U.
  assert (H : 0 < h) by (apply Rinv_0_lt_compat; exact P).
  destruct (c72_bdf2_startup_refuted 1 h n H) as (sols & Ln & D & M & E & Sm & F). exists sols.
  split; [exact Ln|]. split; [exact D|]. split; [exact M|]. split; [exact E|]. split; [exact Sm|]. split.
  - assert (INR n * h = 1) as -> by (apply Rinv_r; lra). ring.
  - unfold norm. rewrite point_ip. unfold minus. specialize (F n (Nat.le_refl n)). cbn beta in F. unfold U. rewrite F. fold (Rsqr (- (1 * h / 2 * (1 - (1 / 3) ^ n)))). rewrite sqrt_Rsqr_abs, Rabs_Ropp.
    assert (T : (1 / 3) ^ n <= 1 / 3).
    { destruct n as [|m]; [lia|]. cbn [pow]. assert (0 <= (1 / 3) ^ m <= 1).
      { split; [apply pow_le; lra|]. rewrite <- (pow1 m) at 2. apply pow_incr. lra. } lra. }
    assert (T' : h / 3 <= 1 * h / 2 * (1 - (1 / 3) ^ n)).
    { replace (h / 3) with (1 * h / 2 * (2 / 3)) by field. apply Rmult_le_compat_l; lra. }
    apply Rlt_le_trans with (h / 3); [|apply Rle_trans with (1 := T'), Rle_abs].
    assert (Q : h * (3 * (Rabs C + 1)) < 1).
    { pose proof (Rabs_pos C). apply Rmult_lt_reg_r with (/ (3 * (Rabs C + 1))); [apply Rinv_0_lt_compat; lra|]. rewrite Rmult_assoc, Rinv_r, Rmult_1_r, Rmult_1_l by lra. exact L. }
    assert (Q2 : h * C <= h * Rabs C) by (apply Rmult_le_compat_l; [lra|apply Rle_abs]).
    assert (Q3 : h * C < 1 / 3) by lra. replace (C * h ^ 2) with (h * (h * C)) by ring. replace (h / 3) with (h * (1 / 3)) by field. apply Rmult_lt_compat_l; assumption.
Qed.
Print Assumptions c72_bdf2_second_order_refuted.

(** ** Examples: runs of any length meeting the hypotheses *)
Lemma whole_subspace : subspace (fun _ => True).
Proof. intros u v _ _. exact I. Qed.
Lemma point_volume : sqrt (volume point) = 1.
Proof. unfold volume, point. cbn [weighted]. replace (1 * 1 + 0) with 1 by ring. apply sqrt_1. Qed.

(** Decay [u' = - u]. *)
Definition decay (k : nat) (u v : nat -> R) : R := u 0%nat * v 0%nat.
Lemma decay_dissipative : dissipative (fun _ => True) decay.
Proof. intros k u v _ _. unfold decay, minus. replace (u 0%nat * (u 0%nat - v 0%nat) - v 0%nat * (u 0%nat - v 0%nat)) with (Rsqr (u 0%nat - v 0%nat)) by (unfold Rsqr; ring). apply Rle_0_sqr. Qed.

Lemma decay_derive_n k s : is_derive_n (fun t => exp (- t)) k s ((-1) ^ k * exp (- s)).
Proof.
  revert s. induction k as [|k IH]; intros s; [cbn; ring|]. change (is_derive (Derive_n (fun t => exp (- t)) k) s ((-1) ^ S k * exp (- s))).
  apply (is_derive_ext (fun t => (-1) ^ k * exp (- t))); [intros t; symmetry; apply is_derive_n_unique, IH|]. auto_derive; [exact I|]. cbn [pow]. ring.
Qed.

Example c72_euler_example : forall h n, 0 < h -> exists sols, length sols = n /\
  marches ImplicitEuler h point (fun _ => True) decay (fun _ _ => 0) (fun _ => 0) [("U"%string, fun _ => 1)] "U" sols /\
  exact_solution point (fun _ => True) decay 0 h (fun t _ => exp (- t)) /\ smooth 2 1 0 (fun t _ => exp (- t)) /\
  norm point (minus (solution (fun _ => 1) (map (fun s => s "U"%string) sols) n) (fun _ => exp (- (0 + INR n * h)))) <= INR n * h * (h / 2).
Proof.
  intros h n H. set (f := fun k => (/ (1 + h)) ^ k).
  assert (V : forall k, (k <= n)%nat -> solution (fun _ : nat => 1) (map (fun s => s "U"%string) (values f n)) k 0%nat = f k) by (intros k L; exact (values_solution f n k L)).
  assert (M : marches ImplicitEuler h point (fun _ => True) decay (fun _ _ => 0) (fun _ => 0) [("U"%string, fun _ => 1)] "U" (values f n)).
  { apply euler_marches with (u0 := fun _ => 1); [repeat constructor; intros []|reflexivity|]. rewrite values_length. intros k L. split; [exact I|]. intros v _. unfold decay. rewrite !point_ip, !V by lia. unfold f. cbn [pow]. field. lra. }
  assert (Ex : exact_solution point (fun _ => True) decay 0 h (fun t _ => exp (- t))).
  { intros k. split; [exact I|]. intros v _. rewrite point_ip. unfold decay. assert (Dd : Derive (fun t : R => exp (- t)) (0 + INR (S k) * h) = - exp (- (0 + INR (S k) * h))) by (apply is_derive_unique; auto_derive; [exact I|ring]). rewrite Dd. ring. }
  assert (Sm : smooth 2 1 0 (fun t _ => exp (- t))).
  { intros x. split; [intros t [|k] _; [exact I|eexists; exact (decay_derive_n (S k) t)]|]. intros t T. rewrite (is_derive_n_unique (fun s : R => exp (- s)) 2 t _ (decay_derive_n 2 t)).
    replace ((-1) ^ 2 * exp (- t)) with (exp (- t)) by ring. rewrite Rabs_pos_eq by (left; apply exp_pos). rewrite <- exp_0. destruct (Rle_lt_or_eq_dec 0 t T) as [Lt| <-]; [left; apply exp_increasing; lra|rewrite Ropp_0; apply Rle_refl]. }
  exists (values f n). split; [apply values_length|]. split; [exact M|]. split; [exact Ex|]. split; [exact Sm|].
  pose proof (c72_euler_accuracy h point (fun _ => True) decay (fun _ => 0) [("U"%string, fun _ => 1)] "U" (values f n) (fun _ => 1) (fun _ _ => 0) 0 (fun t _ => exp (- t)) 1 0
    H point_nonnegative whole_subspace decay_dissipative ltac:(repeat constructor; intros []) eq_refl M) as A.
  assert (Z : norm point (fun _ => 0) = 0) by (unfold norm; rewrite point_ip, Rmult_0_l; apply sqrt_0).
  specialize (A (fun k => Req_le _ _ Z) Ex Rle_0_1 Sm n ltac:(rewrite values_length; lia)). cbn beta in A. rewrite point_volume in A.
  rewrite (norm_ext point (minus (fun _ => 1) (fun _ => exp (- 0))) (fun _ => 0)) in A by (intros; unfold minus; rewrite Ropp_0, exp_0; ring). rewrite Z in A. lra.
Qed.

(** Forced oscillation [u' = - u + cos t - sin t], starting at rest. *)
Definition forced (h : R) (k : nat) (u v : nat -> R) : R := (u 0%nat - (cos (0 + INR (S k) * h) - sin (0 + INR (S k) * h))) * v 0%nat.
Lemma forced_dissipative h : dissipative (fun _ => True) (forced h).
Proof.
  intros k u v _ _. unfold forced, minus. set (g := cos _ - sin _).
  replace ((u 0%nat - g) * (u 0%nat - v 0%nat) - (v 0%nat - g) * (u 0%nat - v 0%nat)) with (Rsqr (u 0%nat - v 0%nat)) by (unfold Rsqr; ring). apply Rle_0_sqr.
Qed.
Fixpoint oscillation (h : R) (k : nat) : R * R :=
  match k with
  | O => (1, 1)
  | S j => let '(u, p) := oscillation h j in ((4 * u - p + 2 * h * (cos (0 + INR (S j) * h) - sin (0 + INR (S j) * h))) / (3 + 2 * h), u)
  end.

Lemma cos_smooth n t1 : (n = 2 \/ n = 3)%nat -> smooth n 1 t1 (fun t _ => cos t).
Proof.
  assert (D1 : forall s, Derive cos s = - sin s) by (intros; apply is_derive_unique; auto_derive; [exact I|ring]).
  assert (D2 : forall s, Derive (fun t => - sin t) s = - cos s) by (intros; apply is_derive_unique; auto_derive; [exact I|ring]).
  assert (D3 : forall s, Derive (fun t => - cos t) s = sin s) by (intros; apply is_derive_unique; auto_derive; [exact I|ring]).
  assert (E2 : forall s, Derive_n (fun t => cos t) 2 s = - cos s) by (intros s; cbn [Derive_n]; rewrite (Derive_ext _ (fun t => - sin t)) by exact D1; apply D2).
  assert (E3 : forall s, Derive_n (fun t => cos t) 3 s = sin s) by (intros s; change (Derive (Derive_n (fun t => cos t) 2) s = sin s); rewrite (Derive_ext _ (fun t => - cos t)) by exact E2; apply D3).
  intros N x. split.
  - intros t k L. destruct k as [|[|[|[|k]]]]; [exact I| | | |lia].
    + change (ex_derive cos t). auto_derive. exact I.
    + change (ex_derive (Derive cos) t). apply (ex_derive_ext (fun s => - sin s)); [intros s; symmetry; apply D1|]. auto_derive. exact I.
    + change (ex_derive (Derive_n (fun s => cos s) 2) t). apply (ex_derive_ext (fun s => - cos s)); [intros s; symmetry; apply E2|]. auto_derive. exact I.
  - intros t _. destruct N as [-> | ->]; [rewrite E2, Rabs_Ropp|rewrite E3]; apply Rabs_le; [pose proof (COS_bound t)|pose proof (SIN_bound t)]; lra.
Qed.

Example c72_bdf2_example : forall h n, 0 < h -> exists sols, length sols = n /\
  marches BDF2 h point (fun _ => True) (forced h) (fun _ _ => 0) (fun _ => 0) [("U"%string, fun _ => 1)] "U" sols /\
  exact_solution point (fun _ => True) (forced h) 0 h (fun t _ => cos t) /\
  norm point (minus (solution (fun _ => 1) (map (fun s => s "U"%string) sols) n) (fun _ => cos (0 + INR n * h))) <= h ^ 2 * (1 / 2) + 4 * (INR n * h) * h ^ 2.
Proof.
  intros h n H. set (f := fun k => fst (oscillation h k)).
  assert (V : forall k, (k <= n)%nat -> solution (fun _ : nat => 1) (map (fun s => s "U"%string) (values f n)) k 0%nat = f k) by (intros k L; exact (values_solution f n k L)).
  assert (Pv : forall k, snd (oscillation h k) = f (k - 1)%nat).
  { intros [|k]; [reflexivity|]. replace (S k - 1)%nat with k by lia. unfold f. cbn [oscillation]. destruct (oscillation h k). reflexivity. }
  assert (Nx : forall k, f (S k) = (4 * f k - f (k - 1)%nat + 2 * h * (cos (0 + INR (S k) * h) - sin (0 + INR (S k) * h))) / (3 + 2 * h)).
  { intros k. rewrite <- (Pv k). unfold f. cbn [oscillation]. destruct (oscillation h k). reflexivity. }
  assert (M : marches BDF2 h point (fun _ => True) (forced h) (fun _ _ => 0) (fun _ => 0) [("U"%string, fun _ => 1)] "U" (values f n)).
  { apply bdf2_marches with (u0 := fun _ => 1); [repeat constructor; intros []|reflexivity|]. rewrite values_length. intros k L. split; [exact I|]. intros v _. unfold forced. rewrite !point_ip, !V by lia. rewrite Nx.
    set (g := cos _ - sin _). field. lra. }
  assert (DC : forall t, Derive (fun s => cos s) t = - sin t) by (intros t; apply is_derive_unique; auto_derive; [exact I|ring]).
  assert (Ex : exact_solution point (fun _ => True) (forced h) 0 h (fun t _ => cos t)).
  { intros k. split; [exact I|]. intros v _. rewrite point_ip. unfold forced. rewrite DC. ring. }
  exists (values f n). split; [apply values_length|]. split; [exact M|]. split; [exact Ex|].
  assert (Z : norm point (fun _ => 0) = 0) by (unfold norm; rewrite point_ip, Rmult_0_l; apply sqrt_0).
  pose proof (c72_bdf2_second_order h point (fun _ => True) (forced h) (fun _ => 0) [("U"%string, fun _ => 1)] "U" (values f n) (fun _ => 1) (fun _ _ => 0) 0 (fun t _ => cos t) 1 1 0
    H point_nonnegative whole_subspace (forced_dissipative h) ltac:(repeat constructor; intros []) eq_refl M (fun k => Req_le _ _ Z) Ex Rle_0_1 (cos_smooth 2 _ ltac:(left; reflexivity)) Rle_0_1 (cos_smooth 3 _ ltac:(right; reflexivity))) as A.
  specialize (A ltac:(intros; rewrite DC, sin_0; ring) n ltac:(rewrite values_length; lia)). cbn beta in A. rewrite point_volume in A.
  rewrite (norm_ext point (minus (fun _ => 1) (fun _ => cos 0)) (fun _ => 0)) in A by (intros; unfold minus; rewrite cos_0; ring). rewrite Z in A. lra.
Qed.
