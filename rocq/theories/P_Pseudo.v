(** C84: pseudo time stepping. *)
From Coq Require Import String Reals List Arith Bool QArith Qreals ZArith Lra Lia FunctionalExtensionality.
From Coquelicot Require Import Coquelicot.
From Verif Require Import Base Dict M_Scheme M_March M_Solve M_Condense S_Condense L_Solve P_Condense S_Newton L_Newton P_Newton P_Scheme M_Pseudo S_Pseudo.
Import ListNotations.
Open Scope R_scope.

Section Run.
Variable n : nat.
Variable condense : bool.
Variables crit damping : R.
Variable c : pseudo.
Variable sc : scheme_kind.
Variable mass : nat -> nat -> R.
Variable spatial : (nat -> R) -> nat -> R.
Variable load : nat -> R.
Variable factorise : R -> (nat -> R) -> factors.

Notation iterate := (pseudo_iterate n condense crit damping c sc mass spatial load factorise).
Notation solve := (pseudo_solve n condense crit damping c sc mass spatial load factorise).

(** The levels between two iterations: [before] and [u] are the last two iterates. *)
Definition kept (before u : nat -> R) (x : nat -> R) : dict (dict (nat -> R)) :=
  match sc with
  | ImplicitEuler => [("U"%string, [("n"%string, before); ("n+1"%string, u)])]
  | BDF2 => [("U"%string, [("n-1"%string, x); ("n"%string, before); ("n+1"%string, u)])]
  end.

Lemma start_kept u0 : scheme_start (time_levels sc) (fun _ => 0) [("U"%string, u0)] = Ok (kept u0 u0 u0).
Proof. unfold kept. destruct sc; reflexivity. Qed.

(** What an iteration evaluates. *)
Definition evaluated (h : R) (before u : nat -> R) (i : nat) : R := drift sc n mass h before u i + spatial u i.

Lemma iterate_step it k h before u x st : iterate it (S k) h (kept before u x) u st =
  let* h1 := solver_iteration_update c h it in
  let (du, ip) := update_step n condense (fun _ => evaluated (Q2R h1) before u) load (factorise (Q2R h1)) it u in
  let st' := set_iteration_error crit st ip in
  if st_nan st' then Ok (u, st', h1, kept u u before, S it)
  else
    let u' := update_solution damping u du in
    if st_converged st' then Ok (u', st', h1, kept u u' before, S it)
    else iterate (S it) k h1 (kept u u' before) u' st'.
Proof.
  assert (EA : forall h1, pseudo_apply n sc mass spatial h1 (kept u u before) u = Ok (evaluated h1 before u)).
  { intros h1. unfold pseudo_apply, levels_of, kept, evaluated, drift. destruct sc; cbn; f_equal; apply functional_extensionality; intros i; f_equal.
    - unfold times. apply sum_zero. intros j _. unfold ie_derivative, Rdiv. ring.
    - apply times_vector. intros j _. unfold bdf2_derivative, Rdiv. ring. }
  assert (EU : scheme_update (time_levels sc) (kept before u x) = Ok (kept u u before)) by (unfold kept; destruct sc; reflexivity).
  assert (EW : forall u', solver_writes (fun _ => u') (kept u u before) = kept u u' before) by (intros; unfold kept; destruct sc; reflexivity).
  cbn [pseudo_iterate]. rewrite EU. cbn [bind]. destruct (solver_iteration_update c h it) as [h1|e]; [|reflexivity]. cbn [bind]. rewrite EA. cbn [bind].
  destruct (update_step n condense (fun _ => evaluated (Q2R h1) before u) load (factorise (Q2R h1)) it u) as [du ip]. now rewrite EW.
Qed.

Lemma step_update h it : (ps_increment_at c <> 0)%Z -> exists h1, solver_iteration_update c h it = Ok h1.
Proof.
  intros H. unfold solver_iteration_update. destruct (negb _); [|now eexists]. destruct (Z.eqb_spec (ps_increment_at c) 0); [congruence|].
  destruct (_ && _); now eexists.
Qed.

Lemma finite_step it (a : nat -> R) f u du ip : update_step n condense (fun _ => a) load f it u = (du, ip) -> exists e, ip = Fin e.
Proof. unfold update_step. destruct (solve_update_step _ _ _ _ _ _). intros [= _ <-]. now eexists. Qed.

(** The iterates from an iteration on. *)
Lemma iterate_trace : (ps_increment_at c <> 0)%Z -> forall k it h before u x st, st_nan st = false ->
  exists us hs uf stf hf g m, iterate it k h (kept before u x) u st = Ok (uf, stf, hf, g, (it + m)%nat) /\ (m <= k)%nat /\
    us 0%nat = u /\ us m = uf /\ st_nan stf = false /\ (m = 0%nat -> stf = st) /\ hf = (match m with O => h | S j => hs j end) /\
    ((m < k)%nat -> st_converged stf = true) /\
    forall j, (j < m)%nat -> exists du e,
      solver_iteration_update c (match j with O => h | S i => hs i end) (it + j) = Ok (hs j) /\
      update_step n condense (fun _ => evaluated (Q2R (hs j)) (match j with O => before | S i => us i end) (us j)) load (factorise (Q2R (hs j))) (it + j) (us j) = (du, Fin e) /\
      us (S j) = update_solution damping (us j) du /\ (st_converged stf = true -> S j = m -> Rabs e < crit) /\ (Rabs e < crit -> S j = m /\ st_converged stf = true).
Proof.
  intros NZ. induction k as [|k IH]; intros it h before u x st Hn.
  - exists (fun _ => u), (fun _ => h), u, st, h, (kept before u x), 0%nat. rewrite Nat.add_0_r. cbn [pseudo_iterate].
    repeat match goal with |- _ /\ _ => split end; trivial; lia.
  - rewrite iterate_step. destruct (step_update h it NZ) as [h1 E1]. rewrite E1. cbn [bind].
    destruct (update_step n condense (fun _ => evaluated (Q2R h1) before u) load (factorise (Q2R h1)) it u) as [du ip] eqn:E2.
    destruct (finite_step _ _ _ _ _ _ E2) as [e ->]. cbv zeta. rewrite fin_status, Hn. cbn [st_nan st_converged].
    destruct (Rlt_dec (Rabs e) crit) as [C|C].
    + exists (fun j => match j with O => u | S _ => update_solution damping u du end), (fun _ => h1), (update_solution damping u du),
        (mk_status true false), h1, (kept u (update_solution damping u du) before), 1%nat. rewrite Nat.add_1_r.
      repeat match goal with |- _ /\ _ => split end; trivial; try lia; try discriminate.
      intros [|j] J; [|lia]. exists du, e. rewrite Nat.add_0_r. repeat match goal with |- _ /\ _ => split end; trivial.
      intros _. split; reflexivity.
    + destruct (IH (S it) h1 u (update_solution damping u du) before (mk_status false false) eq_refl)
        as (us & hs & uf & stf & hf & g & m & R & Lm & U0 & Um & Nn & S0 & Hh & Cv & Steps).
      exists (fun j => match j with O => u | S i => us i end), (fun j => match j with O => h1 | S i => hs i end), uf, stf, hf, g, (S m).
      rewrite <- Nat.add_succ_comm. split; [exact R|]. split; [lia|]. split; [reflexivity|]. split; [exact Um|]. split; [exact Nn|]. split; [discriminate|].
      split; [destruct m; exact Hh|]. split; [intros; apply Cv; lia|].
      intros [|j] J.
      * exists du, e. rewrite Nat.add_0_r. repeat match goal with |- _ /\ _ => split end; trivial.
        -- intros Q M. injection M as M. rewrite (S0 (eq_sym M)) in Q. discriminate Q.
        -- intros Q; contradiction.
      * rewrite <- Nat.add_succ_comm. destruct (Steps j ltac:(lia)) as (dj & ej & A1 & A2 & A3 & A4 & A5). exists dj, ej.
        split; [destruct j; exact A1|]. split; [destruct j; [rewrite <- A2; reflexivity | exact A2]|]. split; [exact A3|]. split.
        -- intros Q M. apply A4; [exact Q | lia].
        -- intros Q. destruct (A5 Q). split; [lia | assumption].
Qed.

End Run.

(** The iterates of a whole run. *)
Lemma run_trace n condense crit damping c sc mass spatial load factorise max h0 u0 : (ps_increment_at c <> 0)%Z ->
  exists us hs uf st hf g k, pseudo_solve n condense crit damping c sc mass spatial load factorise max h0 u0 = Ok (uf, st, hf, g, k) /\ (k <= max)%nat /\
    us 0%nat = u0 /\ us k = uf /\ st_nan st = false /\ (k = 0%nat -> st_converged st = false) /\ pseudo_time_step c h0 k = Ok hf /\
    ((k < max)%nat -> st_converged st = true) /\
    forall j, (j < k)%nat -> exists du e, pseudo_time_step c h0 (S j) = Ok (hs j) /\
      update_step n condense (fun _ => evaluated n sc mass spatial (Q2R (hs j)) (us (pred j)) (us j)) load (factorise (Q2R (hs j))) j (us j) = (du, Fin e) /\
      us (S j) = update_solution damping (us j) du /\ (st_converged st = true -> S j = k -> Rabs e < crit) /\ (Rabs e < crit -> S j = k /\ st_converged st = true).
Proof.
  intros NZ. unfold pseudo_solve. rewrite start_kept. cbn [bind].
  destruct (iterate_trace n condense crit damping c sc mass spatial load factorise NZ max 0 h0 u0 u0 u0 reset_status eq_refl)
    as (us & hs & uf & st & hf & g & k & R & Lk & U0 & Uk & Nn & S0 & Hh & Cv & Steps).
  assert (T : forall j, (j < k)%nat -> pseudo_time_step c h0 (S j) = Ok (hs j)).
  { induction j as [|j IH]; intros J; destruct (Steps _ J) as (du & e & A1 & _).
    - exact A1.
    - cbn [pseudo_time_step] in *. rewrite IH by lia. exact A1. }
  exists us, hs, uf, st, hf, g, k. split; [exact R|]. split; [exact Lk|]. split; [exact U0|]. split; [exact Uk|]. split; [exact Nn|].
  split; [intros Z; rewrite (S0 Z); reflexivity|]. split; [subst hf; destruct k; [reflexivity|]; apply T; lia|]. split; [exact Cv|].
  intros j J. destruct (Steps j J) as (du & e & A1 & A2 & A3 & A4 & A5). exists du, e. split; [apply T, J|]. split; [|now split].
  destruct j; cbn [pred]; [rewrite U0 in *|]; exact A2.
Qed.

(** ** Theorems *)

(** Every run ends; its iterates are those of Newton's method for the steady equations, with the mass matrix over the time step of
    that iteration added to the matrix. With BDF2 the right side has the difference of the last two iterates in addition. The
    convergence is reported as soon as, and only if, the product of correction and right side is below the criterion. *)
Theorem c84_iterates : forall n condense crit damping c sc mass spatial load factorise max h0 u0, (ps_increment_at c <> 0)%Z ->
  exists us uf st hf g k, pseudo_solve n condense crit damping c sc mass spatial load factorise max h0 u0 = Ok (uf, st, hf, g, k) /\ (k <= max)%nat /\
    us 0%nat = u0 /\ us k = uf /\ st_nan st = false /\ ((k < max)%nat -> st_converged st = true) /\ pseudo_time_step c h0 k = Ok hf /\
    forall j, (j < k)%nat -> exists h du, pseudo_time_step c h0 (S j) = Ok h /\ (forall i, us (S j) i = us j i - damping * du i) /\
      let right := fun i => drift sc n mass (Q2R h) (us (pred j)) (us j) i + spatial (us j) i - load i in
      (condense = false -> (Rabs (product n du right) < crit <-> S j = k /\ st_converged st = true)) /\
      forall free loc B, factors_for condense n free loc (shifted sc mass (Q2R h) B) (factorise (Q2R h) (us j)) ->
        solves_system n free (shifted sc mass (Q2R h) B) right du.
Proof.
  intros n condense crit damping c sc mass spatial load factorise max h0 u0 NZ.
  destruct (run_trace n condense crit damping c sc mass spatial load factorise max h0 u0 NZ) as (us & hs & uf & st & hf & g & k & R & Lk & U0 & Uk & Nn & S0 & Th & Cv & Steps).
  exists us, uf, st, hf, g, k. repeat (split; [assumption|]).
  intros j J. destruct (Steps j J) as (du & e & A1 & A2 & A3 & A4 & A5). exists (hs j), du. split; [exact A1|]. split; [rewrite A3; reflexivity|].
  intros right. split.
  - intros ->. unfold update_step in A2. cbn [solve_update_step] in A2. injection A2 as Ed Ee. rewrite <- Ed.
    change (product n _ right) with (product n (times n (inv (factorise (Q2R (hs j)) (us j))) right) right).
    change (product n (times n (inv (factorise (Q2R (hs j)) (us j))) right) right = e) in Ee. rewrite Ee. split; [exact A5|]. intros [Q1 Q2]. now apply A4.
  - intros free loc B F. exact (proj1 (correction_solves n condense free loc _ _ load _ (us j) j du (Fin e) F A2)).
Qed.
Print Assumptions c84_iterates.

(** A right side without entries in the free unknowns gives no correction and no error, with and without condensation. *)
Lemma nothing_to_do n condense free loc A load f it u (a : nat -> R) : factors_for condense n free loc A (f u) ->
  (forall i, (i < n)%nat -> free i = true -> a i = load i) ->
  exists du, update_step n condense (fun _ => a) load f it u = (du, Fin 0) /\ forall i, (i < n)%nat -> du i = 0.
Proof.
  intros F E. unfold update_step, solve_update_step. set (r := fun i => a i - load i).
  assert (Z : forall i, (i < n)%nat -> free i = true -> r i = 0) by (intros; unfold r; rewrite E by assumption; ring).
  assert (Out : forall p B C, inverse_on n p B C -> (forall i, p i = true -> (i < n)%nat -> free i = true) -> forall x, (forall i, (i < n)%nat -> free i = true -> x i = 0) ->
    forall i, (i < n)%nat -> times n C x i = 0).
  { intros p B C [I _] P x X i Hi. apply sum_zero. intros k Hk. destruct (p k) eqn:Pk; [rewrite (X k Hk (P k Pk Hk)); ring|]. rewrite (I i k Hi Hk); [ring|].
    rewrite Pk. apply andb_false_r. }
  unfold factors_for in F. destruct condense.
  - destruct F as (Lf & Ii & Ex & Et & Iv).
    assert (T : forall i, (i < n)%nat -> times n (extension_trans (f u)) r i = 0).
    { intros i Hi. rewrite (times_ext n _ (fun i j => - compose n (block (global loc) loc A) (inner_solve (f u)) i j) r r) by
        (try assumption; intros; rewrite Et by assumption; reflexivity).
      unfold times. apply sum_zero. intros k Hk. destruct (loc k) eqn:Lk; [rewrite (Z k Hk (Lf k Hk Lk)); ring|].
      unfold compose. rewrite sum_zero; [ring|]. intros l Hl. rewrite (proj1 Ii l k Hl Hk); [ring|]. rewrite Lk. apply andb_false_r. }
    set (r' := fun i => r i + times n (extension_trans (f u)) r i).
    assert (Z' : forall i, (i < n)%nat -> free i = true -> r' i = 0) by (intros; unfold r'; rewrite Z, T by assumption; ring).
    assert (T1 : forall i, (i < n)%nat -> times n (inv (f u)) r' i = 0).
    { apply (Out _ _ _ Iv); [|exact Z']. intros i Q _. now destruct (free i). }
    assert (T2 : forall i, (i < n)%nat -> times n (inner_solve (f u)) r' i = 0).
    { apply (Out _ _ _ Ii); [|exact Z']. intros i Q Hi. now apply Lf. }
    set (du := fun i => times n (inv (f u)) r' i + times n (extension (f u)) (times n (inv (f u)) r') i + times n (inner_solve (f u)) r' i).
    assert (D : forall i, (i < n)%nat -> du i = 0).
    { intros i Hi. unfold du. rewrite T1, T2 by assumption. unfold times at 1. rewrite sum_zero; [ring|]. intros j Hj. rewrite T1 by assumption. ring. }
    exists du. split; [|exact D]. change ((du, Fin (product n du r')) = (du, Fin 0)).
    assert (P : product n du r' = 0) by (apply sum_zero; intros i Hi; rewrite D by assumption; ring). now rewrite P.
  - assert (T1 : forall i, (i < n)%nat -> times n (inv (f u)) r i = 0) by (apply (Out _ _ _ F); [trivial | exact Z]).
    exists (times n (inv (f u)) r). split; [|exact T1]. change ((times n (inv (f u)) r, Fin (product n (times n (inv (f u)) r) r)) = (times n (inv (f u)) r, Fin 0)).
    assert (P : product n (times n (inv (f u)) r) r = 0) by (apply sum_zero; intros i Hi; rewrite T1 by assumption; ring). now rewrite P.
Qed.

Lemma first_drift sc n mass h u i : drift sc n mass h u u i = 0.
Proof. destruct sc; cbn [drift]; [reflexivity|]. apply sum_zero. intros j _. unfold Rdiv. ring. Qed.

(** The time step never falls below the first one. *)
Lemma step_grows c h0 : (ps_increment_at c <> 0)%Z -> (1 <= ps_increment_factor c)%Z -> (0 < h0)%Q -> forall j h h', pseudo_time_step c h0 j = Ok h ->
  pseudo_time_step c h0 (S j) = Ok h' -> 0 < Q2R h0 /\ Q2R h0 <= Q2R h /\ Q2R h <= Q2R h'.
Proof.
  intros NZ F H j h h' E E'. destruct (c06_monotone_bounded c h0 j NZ F H) as (x & x' & X & X' & A1 & A2 & _).
  rewrite E in X. injection X as <-. rewrite E' in X'. injection X' as <-.
  split; [replace 0 with (Q2R 0) by (unfold Q2R; cbn; lra); now apply Qlt_Rlt|]. split; now apply Qle_Rle.
Qed.

(** A run from a steady state ends at once with this state, for both schemes. *)
Theorem c84_steady_kept : forall n condense free loc B crit damping c sc mass spatial load factorise max h0 u0, (ps_increment_at c <> 0)%Z ->
  (1 <= ps_increment_factor c)%Z -> (0 < h0)%Q -> 0 < crit ->
  (forall h, 0 < h -> factors_for condense n free loc (shifted sc mass h (B u0)) (factorise h u0)) -> steady n free spatial load u0 ->
  exists uf hf g, pseudo_solve n condense crit damping c sc mass spatial load factorise (S max) h0 u0 = Ok (uf, mk_status true false, hf, g, 1%nat) /\
    forall i, (i < n)%nat -> uf i = u0 i.
Proof.
  intros n condense free loc B crit damping c sc mass spatial load factorise max h0 u0 NZ NF H0 C0 F St.
  destruct (run_trace n condense crit damping c sc mass spatial load factorise (S max) h0 u0 NZ) as (us & hs & uf & st & hf & g & k & R & Lk & U0 & Uk & Nn & S0 & Th & Cv & Steps).
  assert (K : (0 < k)%nat).
  { destruct k; [|lia]. specialize (Cv ltac:(lia)). rewrite (S0 eq_refl) in Cv. discriminate. }
  destruct (Steps 0%nat K) as (du & e & A1 & A2 & A3 & A4 & A5). cbn [pred] in A2. rewrite U0 in *.
  destruct (nothing_to_do n condense free loc _ load (factorise (Q2R (hs 0%nat))) 0 u0 (evaluated n sc mass spatial (Q2R (hs 0%nat)) u0 u0)
    (F (Q2R (hs 0%nat)) ltac:(destruct (step_grows c h0 NZ NF H0 0%nat h0 _ eq_refl A1) as (? & ? & ?); lra))) as (du' & Eq & Z).
  { intros i Hi Fr. unfold evaluated. rewrite first_drift, Rplus_0_l. now apply St. }
  rewrite Eq in A2. injection A2 as <- <-. rewrite Rabs_R0 in A5. destruct (A5 C0) as [<- Cs].
  exists uf, hf, g. split.
  - rewrite R. destruct st as [cv nn]. cbn in Nn, Cs. subst. reflexivity.
  - intros i Hi. rewrite <- Uk, A3. unfold update_solution. rewrite Z by exact Hi. ring.
Qed.
Print Assumptions c84_steady_kept.

(** With implicit Euler, an iteration that changes nothing has found a steady state, whatever the time step is. *)
Theorem c84_unchanged : forall n condense free loc B crit damping c mass spatial load factorise max h0 u0, (ps_increment_at c <> 0)%Z -> (1 <= ps_increment_factor c)%Z -> (0 < h0)%Q -> damping <> 0 ->
  exists us uf st hf g k, pseudo_solve n condense crit damping c ImplicitEuler mass spatial load factorise max h0 u0 = Ok (uf, st, hf, g, k) /\
    us 0%nat = u0 /\ us k = uf /\ forall j, (j < k)%nat ->
      (forall h, 0 < h -> factors_for condense n free loc (shifted ImplicitEuler mass h (B (us j))) (factorise h (us j))) ->
      (forall i, (i < n)%nat -> us (S j) i = us j i) -> steady n free spatial load (us j).
Proof.
  intros n condense free loc B crit damping c mass spatial load factorise max h0 u0 NZ NF H0 D.
  destruct (c84_iterates n condense crit damping c ImplicitEuler mass spatial load factorise max h0 u0 NZ) as (us & uf & st & hf & g & k & R & _ & U0 & Uk & _ & _ & _ & Steps).
  exists us, uf, st, hf, g, k. repeat (split; [assumption|]). intros j J F Same i Hi Fr.
  destruct (Steps j J) as (h & du & A1 & Up & _ & Sy).
  assert (Hp : 0 < Q2R h).
  { destruct (c06_monotone_bounded c h0 j NZ NF H0) as (x & x' & X & _). destruct (step_grows c h0 NZ NF H0 j x h X A1) as (? & ? & ?). lra. }
  specialize (Sy free loc (B (us j)) (F (Q2R h) Hp) i Hi). rewrite Fr in Sy. cbn [drift] in Sy.
  assert (Z : forall l, (l < n)%nat -> du l = 0).
  { intros l Hl. specialize (Same l Hl). rewrite Up in Same. assert (damping * du l = 0) by lra. destruct (Rmult_integral _ _ H); [contradiction | assumption]. }
  assert (T : times n (shifted ImplicitEuler mass (Q2R h) (B (us j))) du i = 0) by (apply sum_zero; intros l Hl; rewrite Z by assumption; ring).
  rewrite T in Sy. lra.
Qed.
Print Assumptions c84_unchanged.

(** ** Convergence *)

Section Stable.
Variable n : nat.

Lemma product_left a b x y z : product n (fun i => a * x i + b * y i) z = a * product n x z + b * product n y z.
Proof. unfold product. rewrite <- !sum_scale, <- sum_plus. apply sum_ext. intros; ring. Qed.

Lemma product_right a b x y z : product n z (fun i => a * x i + b * y i) = a * product n z x + b * product n z y.
Proof. unfold product. rewrite <- !sum_scale, <- sum_plus. apply sum_ext. intros; ring. Qed.

Lemma product_ext x y x' y' : (forall i, (i < n)%nat -> x i = x' i) -> (forall i, (i < n)%nat -> y i = y' i) -> product n x y = product n x' y'.
Proof. intros X Y. apply sum_ext. intros i I. now rewrite X, Y. Qed.

Variable mass : nat -> nat -> R.
Notation Q x y := (product n x (times n mass y)).

Lemma form_combination a b x y : Q (fun i => a * x i + b * y i) (fun i => a * x i + b * y i) = a * a * Q x x + a * b * (Q x y + Q y x) + b * b * Q y y.
Proof.
  rewrite product_left.
  rewrite !(product_ext _ (times n mass (fun i => a * x i + b * y i)) _ (fun i => a * times n mass x i + b * times n mass y i)) by
    (trivial; intros; rewrite (times_plus n mass (fun j => a * x j) (fun j => b * y j)), !times_scale; reflexivity).
  rewrite !product_right. ring.
Qed.

Lemma form_symmetric x y : (forall i j, (i < n)%nat -> (j < n)%nat -> mass i j = mass j i) -> Q x y = Q y x.
Proof.
  intros Sm. unfold product, times.
  transitivity (sum n (fun i => sum n (fun j => x i * (mass i j * y j)))); [apply sum_ext; intros; symmetry; apply sum_scale|].
  rewrite sum_swap. apply sum_ext. intros i Hi. rewrite <- sum_scale. apply sum_ext. intros j Hj. rewrite (Sm j i) by assumption. ring.
Qed.

Variable free : nat -> bool.
Variable spatial : (nat -> R) -> nat -> R.
Variable load : nat -> R.
Variable B : (nat -> R) -> nat -> nat -> R.
Variable s : nat -> R.
Variables r L c m : R.
Hypothesis mm : mass_matrix n mass m.
Hypothesis st : stable_state n free spatial load B s r L c.
Hypothesis L_pos : 0 <= L.
Hypothesis c_pos : 0 < c.
Hypothesis near : 2 * L * r <= c.

Lemma stable_regular : regular_solution n free (fun u i => spatial u i - load i) B s r L (/ c).
Proof.
  split.
  - intros i I Fr. rewrite (ss_steady _ _ _ _ _ _ _ _ _ st i I Fr). ring.
  - intros u U i I Fr t T. pose proof (ss_derivative _ _ _ _ _ _ _ _ _ st u U i I Fr t T) as D.
    apply (is_derive_ext (fun t => spatial (line s u t) i + - load i)); [intros; match goal with |- ?x = ?y => change (@eq R x y) end; ring|].
    match type of D with is_derive _ _ ?d => replace d with (plus d 0) by apply Rplus_0_r end.
    apply (is_derive_plus (fun t => spatial (line s u t) i) (fun _ => - load i) t _ 0); [exact D | apply (is_derive_const (- load i) t)].
  - apply (ss_change _ _ _ _ _ _ _ _ _ st).
  - intros u w U W. pose proof (ss_decay _ _ _ _ _ _ _ _ _ st u w U W) as D.
    rewrite (within_product n free w (times n (B u) w) W) in D. pose proof (Rle_trans _ _ _ D (Rle_trans _ _ _ (Rle_abs _) (product_bound n w _))) as P.
    rewrite <- (length_square n w : _ = product n w w) in P. pose proof (length_nonneg n w) as W0.
    set (x := length_of n w) in *. set (y := length_of n (only free (times n (B u) w))) in *.
    apply Rmult_le_reg_l with c; [exact c_pos|]. replace (c * (/ c * y)) with y by (field; lra).
    destruct (Rle_lt_or_eq_dec 0 x W0) as [X|X]; [nra|]. rewrite <- X, Rmult_0_r. apply length_nonneg.
Qed.

(** The iteration without damping. *)
Lemma full_step h u du : 0 < h -> around n free s r u -> solves_system n free (shifted ImplicitEuler mass h (B u)) (fun i => spatial u i - load i) du ->
  let e := fun i => u i - s i in let w := fun i => u i - s i - du i in
  within n free w /\ Q w w / h + c * product n w w <= Q e e / h + c / 4 * product n e e.
Proof.
  intros H U Sy e w.
  assert (We : within n free e) by (apply (around_within n free s r u U)).
  assert (Wd : within n free du) by (intros i I Fr; specialize (Sy i I); rewrite Fr in Sy; exact Sy).
  assert (Ww : within n free w) by (intros i I Fr; unfold w; rewrite (Wd i I Fr); pose proof (We i I Fr) as X; unfold e in X; lra).
  split; [exact Ww|].
  set (z := only free (fun i => (spatial u i - load i) - times n (B u) e i)).
  pose proof (linearization_error n free (fun u i => spatial u i - load i) B s r L (/ c) stable_regular L_pos u U) as Lin. fold e z in Lin.
  assert (Id : Q w w / h + product n w (times n (B u) w) = Q w e / h - product n w z).
  { transitivity (product n w (fun i => / h * times n mass w i + 1 * times n (B u) w i)); [rewrite product_right; unfold Rdiv; ring|].
    transitivity (product n w (fun i => / h * times n mass e i + -1 * z i)); [|rewrite product_right; unfold Rdiv; ring].
    rewrite (within_product n free w _ Ww), (within_product n free w (fun i => / h * times n mass e i + -1 * z i) Ww). apply product_ext; trivial.
    intros i I. unfold only at 1 2. destruct (free i) eqn:Fr; [|reflexivity].
    specialize (Sy i I). rewrite Fr in Sy.
    assert (T : forall x, times n (shifted ImplicitEuler mass h (B u)) x i = / h * times n mass x i + times n (B u) x i).
    { intros x. unfold times. rewrite <- sum_scale, <- sum_plus. apply sum_ext. intros j J. unfold shifted, lead. field. lra. }
    rewrite T in Sy. unfold z, only. rewrite Fr.
    assert (Tw : forall M, times n M w i = times n M e i - times n M du i).
    { intros M. rewrite (times_vector n M w (fun j => e j + -1 * du j)) by (intros; unfold w, e; ring). rewrite times_plus, times_scale. ring. }
    rewrite !Tw. lra. }
  destruct mm as [Sm Bd].
  assert (Cs : 2 * Q w e <= Q w w + Q e e).
  { destruct (Bd (fun i => 1 * w i + -1 * e i)) as [P _]. rewrite form_combination, (form_symmetric e w Sm) in P. lra. }
  pose proof (ss_decay _ _ _ _ _ _ _ _ _ st u w U Ww) as Dc.
  pose proof (product_bound n w z) as Pb. rewrite <- (Rabs_Ropp (product n w z)) in Pb. pose proof (Rle_trans _ _ _ (Rle_abs _) Pb) as Pz.
  pose proof (length_nonneg n w) as W0. pose proof (length_nonneg n e) as E0. change (distance n u s) with (length_of n e) in Lin.
  destruct U as [_ Ur]. change (distance n u s) with (length_of n e) in Ur.
  assert (Sw : product n w w = length_of n w * length_of n w) by (symmetry; apply length_square).
  assert (Se : product n e e = length_of n e * length_of n e) by (symmetry; apply length_square).
  rewrite Sw in *. rewrite Se. set (x := length_of n w) in *. set (y := length_of n e) in *. set (q := length_of n z) in *.
  assert (Hi : 0 < / h) by now apply Rinv_0_lt_compat.
  assert (Cs' : Q w e / h <= (Q w w / h + Q e e / h) / 2) by (unfold Rdiv; nra).
  assert (q0 : q <= c / 2 * y).
  { eapply Rle_trans; [exact Lin|]. apply Rmult_le_compat_r; [exact E0|]. assert (L * y <= L * r) by (apply Rmult_le_compat_l; assumption). lra. }
  assert (Xq : x * q <= c / 2 * (x * x) + c / 8 * (y * y)).
  { assert (x * q <= x * (c / 2 * y)) by (apply Rmult_le_compat_l; assumption).
    assert (0 <= c * ((x - y / 2) * (x - y / 2))) by (apply Rmult_le_pos; [lra | apply Rle_0_sqr]). lra. }
  lra.
Qed.

(** The factor of a full iteration. *)
Definition contraction (h : R) : R := (4 * m / h + c) / (4 * m / h + 4 * c).

Definition energy (h : R) (e : nat -> R) : R := Q e e / h + c / 4 * product n e e.

Lemma m_nonneg w : 0 < product n w w -> 0 <= m.
Proof. intros P. destruct mm as [_ Bd]. specialize (Bd w). destruct (Rle_or_lt 0 m) as [H|H]; [exact H|]. nra. Qed.

Lemma squares_pos w : 0 <= product n w w.
Proof. apply squares_nonneg. Qed.

Lemma energy_shrinks h0 h u du : 0 <= m -> 0 < h0 -> h0 <= h -> around n free s r u ->
  solves_system n free (shifted ImplicitEuler mass h (B u)) (fun i => spatial u i - load i) du ->
  forall d, 0 <= d <= 1 -> energy h (fun i => update_solution d u du i - s i) <= (1 - d + d * contraction h0) * energy h (fun i => u i - s i).
Proof.
  intros M0 H0 H U Sy d D. destruct (full_step h u du ltac:(lra) U Sy) as [Ww Fs]. cbv zeta in Fs.
  set (e := fun i => u i - s i) in *. set (w := fun i => u i - s i - du i) in *.
  destruct mm as [Sm Bd].
  assert (Cx : energy h (fun i => update_solution d u du i - s i) <= (1 - d) * energy h e + d * energy h w).
  { unfold energy.
    assert (Eq : forall i, (i < n)%nat -> update_solution d u du i - s i = (1 - d) * e i + d * w i) by (intros; unfold update_solution, e, w; ring).
    rewrite (product_ext _ _ (fun i => (1 - d) * e i + d * w i) (times n mass (fun i => (1 - d) * e i + d * w i)) Eq)
      by (intros; apply times_vector; exact Eq).
    rewrite (product_ext _ _ (fun i => (1 - d) * e i + d * w i) (fun i => (1 - d) * e i + d * w i) Eq Eq).
    rewrite form_combination, product_left, !product_right.
    assert (Pm : product n w e = product n e w) by (apply sum_ext; intros; ring). rewrite Pm, (form_symmetric w e Sm).
    destruct (Bd (fun i => 1 * e i + -1 * w i)) as [P _]. rewrite form_combination, (form_symmetric w e Sm) in P.
    pose proof (squares_pos (fun i => 1 * e i + -1 * w i)) as P2. rewrite product_left, !product_right, Pm in P2.
    assert (Dd : 0 <= d * (1 - d)) by (apply Rmult_le_pos; lra).
    assert (Hi : 0 < / h) by (apply Rinv_0_lt_compat; lra).
    pose proof (Rmult_le_pos _ _ (Rmult_le_pos _ _ Dd (Rlt_le _ _ Hi)) P) as X1.
    pose proof (Rmult_le_pos _ _ (Rmult_le_pos _ _ Dd (Rlt_le _ _ c_pos)) P2) as X2. unfold Rdiv. lra. }
  assert (Ew : energy h w <= contraction h0 * (Q w w / h + c * product n w w)).
  { unfold energy, contraction. destruct (Bd w) as [A0 A1]. pose proof (squares_pos w) as X0.
    set (a := Q w w) in *. set (x := product n w w) in *. clearbody a x.
    assert (Hi : 0 < / h) by (apply Rinv_0_lt_compat; lra). assert (H0i : 0 < / h0) by (apply Rinv_0_lt_compat; lra).
    assert (Hh : / h <= / h0) by (apply Rinv_le_contravar; lra).
    unfold Rdiv. set (p := / h) in *. set (p0 := / h0) in *. clearbody p p0.
    assert (M1 : 0 <= m * p0) by (apply Rmult_le_pos; lra).
    apply Rmult_le_reg_r with (4 * m * p0 + 4 * c); [lra|].
    replace ((4 * m * p0 + c) * / (4 * m * p0 + 4 * c) * (a * p + c * x) * (4 * m * p0 + 4 * c)) with ((4 * m * p0 + c) * (a * p + c * x)) by (field; lra).
    assert (K1 : a * p <= m * x * p0).
    { apply Rle_trans with (m * x * p); [apply Rmult_le_compat_r; lra|]. apply Rmult_le_compat_l; [apply Rmult_le_pos; assumption | exact Hh]. }
    assert (K2 : c * (a * p) <= c * (m * x * p0)) by (apply Rmult_le_compat_l; lra). lra. }
  assert (C0 : 0 <= contraction h0).
  { unfold contraction. assert (0 <= 4 * m / h0) by (unfold Rdiv; apply Rmult_le_pos; [lra | apply Rlt_le, Rinv_0_lt_compat, H0]).
    unfold Rdiv. apply Rmult_le_pos; [lra | apply Rlt_le, Rinv_0_lt_compat; lra]. }
  assert (Ew2 : energy h w <= contraction h0 * energy h e) by (eapply Rle_trans; [exact Ew|]; apply Rmult_le_compat_l; [exact C0 | exact Fs]).
  pose proof (Rmult_le_compat_l d _ _ (proj1 D) Ew2). lra.
Qed.

End Stable.

(** The whole setting: a stable steady state, mass matrix, factors of NGSolve. *)
Definition pseudo_setting (n : nat) (condense : bool) (free loc : nat -> bool) (c : pseudo) (mass : nat -> nat -> R) (spatial : (nat -> R) -> nat -> R)
    (load : nat -> R) (factorise : R -> (nat -> R) -> factors) (B : (nat -> R) -> nat -> nat -> R) (s : nat -> R) (h0 : Q) (r L k m : R) : Prop :=
  (ps_increment_at c <> 0)%Z /\ (1 <= ps_increment_factor c)%Z /\ (0 < h0)%Q /\ 0 <= r /\ 0 <= L /\ 0 < k /\ 0 <= m /\ 2 * L * r <= k /\
  mass_matrix n mass m /\ stable_state n free spatial load B s r L k /\
  forall h u, 0 < h -> around n free s r u -> factors_for condense n free loc (shifted ImplicitEuler mass h (B u)) (factorise h u).

Lemma same_right n free A x y du : (forall i, (i < n)%nat -> x i = y i) -> solves_system n free A x du -> solves_system n free A y du.
Proof. intros E Sy i I. specialize (Sy i I). destruct (free i); [rewrite <- E by exact I|]; exact Sy. Qed.

Definition factor (d h0 k m : R) : R := 1 - d + d * ((4 * m / h0 + k) / (4 * m / h0 + 4 * k)).

Lemma factor_range d h0 k m : 0 <= d <= 1 -> 0 < h0 -> 0 < k -> 0 <= m -> 0 <= factor d h0 k m <= 1 /\ (0 < d -> factor d h0 k m < 1).
Proof.
  intros D H K M. unfold factor. assert (X : 0 <= 4 * m / h0) by (unfold Rdiv; apply Rmult_le_pos; [lra | apply Rlt_le, Rinv_0_lt_compat, H]).
  set (x := 4 * m / h0) in *. clearbody x.
  assert (Q1 : 0 <= (x + k) / (x + 4 * k)) by (unfold Rdiv; apply Rmult_le_pos; [lra | apply Rlt_le, Rinv_0_lt_compat; lra]).
  assert (Q2 : (x + k) / (x + 4 * k) < 1) by (apply Rmult_lt_reg_r with (x + 4 * k); [lra|]; unfold Rdiv; rewrite Rmult_assoc, Rinv_l by lra; lra).
  set (q := (x + k) / (x + 4 * k)) in *. clearbody q. repeat split; nra.
Qed.

(** The iterates with their energies. *)
Lemma pseudo_decay n condense free loc c mass spatial load factorise B s h0 r L k m crit d max u0 :
  pseudo_setting n condense free loc c mass spatial load factorise B s h0 r L k m -> 0 <= d <= 1 ->
  (forall i, (i < n)%nat -> free i = false -> u0 i = s i) -> (4 * m / Q2R h0 + k) * (distance n u0 s * distance n u0 s) <= k * (r * r) ->
  forall us hs steps, us 0%nat = u0 -> (forall j, (j < steps)%nat -> exists du e, pseudo_time_step c h0 (S j) = Ok (hs j) /\
      update_step n condense (fun _ => evaluated n ImplicitEuler mass spatial (Q2R (hs j)) (us (pred j)) (us j)) load (factorise (Q2R (hs j))) j (us j) = (du, Fin e) /\
      us (S j) = update_solution d (us j) du /\ (st_converged max = true -> S j = steps -> Rabs e < crit) /\ (Rabs e < crit -> S j = steps /\ st_converged max = true)) ->
  forall j, (j <= steps)%nat -> exists h, pseudo_time_step c h0 j = Ok h /\ around n free s r (us j) /\
    energy n mass k (Q2R h) (fun i => us j i - s i) <= factor d (Q2R h0) k m ^ j * ((m / Q2R h0 + k / 4) * (distance n u0 s * distance n u0 s)).
Proof.
  intros (NZ & NF & H0 & R0 & L0 & K0 & M0 & Nr & Mm & St & Fac) D Out Small us hs steps U0 Steps.
  assert (Hp : 0 < Q2R h0) by (replace 0 with (Q2R 0) by (unfold Q2R; cbn; lra); now apply Qlt_Rlt).
  destruct (factor_range d (Q2R h0) k m D Hp K0 M0) as [Fr _].
  assert (E0 : forall e, 0 <= product n e (times n mass e)) by (intros; apply Mm).
  assert (D2 : forall u, distance n u s * distance n u s = product n (fun i => u i - s i) (fun i => u i - s i)) by (intros; apply length_square).
  assert (Ball : forall h u, 0 < h -> (forall i, (i < n)%nat -> free i = false -> u i = s i) ->
    energy n mass k h (fun i => u i - s i) <= (m / Q2R h0 + k / 4) * (distance n u0 s * distance n u0 s) -> around n free s r u).
  { intros h u H O E. split; [exact O|]. unfold energy in E. rewrite <- D2 in E.
    assert (P : 0 <= product n (fun i => u i - s i) (times n mass (fun i => u i - s i)) / h) by (unfold Rdiv; apply Rmult_le_pos; [apply E0 | apply Rlt_le, Rinv_0_lt_compat, H]).
    assert (X : k * (distance n u s * distance n u s) <= k * (r * r)).
    { eapply Rle_trans; [|exact Small]. unfold Rdiv in *. lra. }
    pose proof (length_nonneg n (fun i => u i - s i)) as X0. change (0 <= distance n u s) in X0.
    apply Rmult_le_reg_l in X; [|exact K0]. apply Rnot_lt_le. intros Lt. nra. }
  induction j as [|j IH]; intros J.
  - exists h0. rewrite U0. split; [reflexivity|].
    assert (E : energy n mass k (Q2R h0) (fun i => u0 i - s i) <= (m / Q2R h0 + k / 4) * (distance n u0 s * distance n u0 s)).
    { unfold energy. rewrite D2. destruct Mm as [_ Bd]. destruct (Bd (fun i => u0 i - s i)) as [_ Bu].
      assert (Hi : 0 < / Q2R h0) by now apply Rinv_0_lt_compat. unfold Rdiv.
      pose proof (Rmult_le_compat_r (/ Q2R h0) _ _ (Rlt_le _ _ Hi) Bu). lra. }
    split; [apply (Ball (Q2R h0)); assumption|]. cbn [pow]. lra.
  - destruct (IH ltac:(lia)) as (h & Th & Ar & En). destruct (Steps j ltac:(lia)) as (du & e & T1 & Eu & Up & _).
    destruct (step_grows c h0 NZ NF H0 j h (hs j) Th T1) as (_ & G1 & G2). exists (hs j). split; [exact T1|].
    assert (Sy : solves_system n free (shifted ImplicitEuler mass (Q2R (hs j)) (B (us j))) (fun i => spatial (us j) i - load i) du).
    { eapply same_right; [|exact (proj1 (correction_solves n condense free loc _ _ load _ (us j) j du (Fin e) (Fac (Q2R (hs j)) (us j) ltac:(lra) Ar) Eu))].
      intros i I. unfold evaluated. cbn [drift]. ring. }
    pose proof (energy_shrinks n mass free spatial load B s r L k m Mm St L0 K0 Nr (Q2R h0) (Q2R (hs j)) (us j) du M0 Hp ltac:(lra) Ar Sy d D) as Es.
    rewrite <- Up in Es. fold (factor d (Q2R h0) k m) in Es.
    assert (Ej : energy n mass k (Q2R (hs j)) (fun i => us j i - s i) <= energy n mass k (Q2R h) (fun i => us j i - s i)).
    { unfold energy. apply Rplus_le_compat_r. unfold Rdiv. apply Rmult_le_compat_l; [apply E0|]. apply Rinv_le_contravar; lra. }
    assert (En1 : energy n mass k (Q2R (hs j)) (fun i => us (S j) i - s i) <= factor d (Q2R h0) k m ^ S j * ((m / Q2R h0 + k / 4) * (distance n u0 s * distance n u0 s))).
    { eapply Rle_trans; [exact Es|]. unfold contraction. cbn [pow]. rewrite Rmult_assoc. apply Rmult_le_compat_l; [apply Fr|]. lra. }
    split; [|exact En1]. apply (Ball (Q2R (hs j))); [lra| |].
    + intros i I F. rewrite Up. unfold update_solution. specialize (Sy i I). rewrite F in Sy. rewrite Sy, (proj1 Ar i I F). ring.
    + eapply Rle_trans; [exact En1|].
      assert (P1 : factor d (Q2R h0) k m ^ S j <= 1) by (rewrite <- (pow1 (S j)); apply pow_incr; exact Fr).
      assert (P2 : 0 <= (m / Q2R h0 + k / 4) * (distance n u0 s * distance n u0 s)).
      { rewrite D2. apply Rmult_le_pos; [|apply squares_pos]. assert (0 <= m / Q2R h0) by (unfold Rdiv; apply Rmult_le_pos; [lra | apply Rlt_le, Rinv_0_lt_compat, Hp]). lra. }
      pose proof (Rmult_le_compat_r _ _ _ P2 P1). lra.
Qed.

(** With implicit Euler and a start near a stable steady state, all iterates stay near it, and the square of the distance shrinks
    at least by a fixed factor in every iteration; any damping up to one, any sequence of time steps, with or without condensation. *)
Theorem c84_converges : forall n condense free loc c mass spatial load factorise B s h0 r L k m crit d max u0,
  pseudo_setting n condense free loc c mass spatial load factorise B s h0 r L k m -> 0 <= d <= 1 ->
  (forall i, (i < n)%nat -> free i = false -> u0 i = s i) -> (4 * m / Q2R h0 + k) * (distance n u0 s * distance n u0 s) <= k * (r * r) ->
  exists uf st hf g steps, pseudo_solve n condense crit d c ImplicitEuler mass spatial load factorise max h0 u0 = Ok (uf, st, hf, g, steps) /\
    (steps <= max)%nat /\ (st_converged st = false -> steps = max) /\ st_nan st = false /\ around n free s r uf /\
    k * (distance n uf s * distance n uf s) <=
      (1 - d + d * ((4 * m / Q2R h0 + k) / (4 * m / Q2R h0 + 4 * k))) ^ steps * ((4 * m / Q2R h0 + k) * (distance n u0 s * distance n u0 s)).
Proof.
  intros n condense free loc c mass spatial load factorise B s h0 r L k m crit d max u0 Se D Out Small. pose proof Se as (NZ & NF & H0 & R0 & L0 & K0 & M0 & Nr & Mm & St & Fac).
  destruct (run_trace n condense crit d c ImplicitEuler mass spatial load factorise max h0 u0 NZ) as (us & hs & uf & st & hf & g & steps & R & Lk & U0 & Uk & Nn & S0 & Th & Cv & Steps).
  destruct (pseudo_decay n condense free loc c mass spatial load factorise B s h0 r L k m crit d st u0 Se D Out Small us hs steps U0 Steps steps (Nat.le_refl _)) as (h & Eh & Ar & En).
  exists uf, st, hf, g, steps. rewrite Uk in *. split; [exact R|]. split; [exact Lk|]. split.
  { intros C. destruct (Nat.eq_dec steps max) as [|Ne]; [assumption|]. rewrite Cv in C by lia. discriminate. }
  split; [exact Nn|]. split; [exact Ar|]. fold (factor d (Q2R h0) k m).
  assert (Hh : 0 < Q2R h).
  { destruct (c06_monotone_bounded c h0 steps NZ NF H0) as (x & x' & X & X' & _). rewrite Eh in X. injection X as <-.
    destruct (step_grows c h0 NZ NF H0 steps h x' Eh X') as (? & ? & ?). lra. }
  unfold energy in En. rewrite <- (length_square n (fun i => uf i - s i) : _ = product n _ _) in En. change (length_of n (fun i => uf i - s i)) with (distance n uf s) in En.
  assert (P : 0 <= product n (fun i => uf i - s i) (times n mass (fun i => uf i - s i)) / Q2R h) by (unfold Rdiv; apply Rmult_le_pos; [apply Mm | apply Rlt_le, Rinv_0_lt_compat, Hh]).
  replace (factor d (Q2R h0) k m ^ steps * ((4 * m / Q2R h0 + k) * (distance n u0 s * distance n u0 s)))
    with (4 * (factor d (Q2R h0) k m ^ steps * ((m / Q2R h0 + k / 4) * (distance n u0 s * distance n u0 s)))) by (unfold Rdiv; set (p := / Q2R h0); clearbody p; field).
  lra.
Qed.
Print Assumptions c84_converges.

(** With enough iterations the run ends by reporting convergence. *)
Theorem c84_reported : forall n condense free loc c mass spatial load factorise B s h0 r L k m crit d u0 K E,
  pseudo_setting n condense free loc c mass spatial load factorise B s h0 r L k m -> 0 < d <= 1 -> 0 < crit -> 0 <= K -> 0 <= E ->
  (forall h u w, Q2R h0 <= h -> around n free s r u -> within n free w -> length_of n (only free (times n (shifted ImplicitEuler mass h (B u)) w)) <= K * length_of n w) ->
  (condense = true -> forall h u w, Q2R h0 <= h -> around n free s r u ->
     length_of n (only free (times n (extension_trans (factorise h u)) (only free w))) <= E * length_of n (only free w)) ->
  (forall i, (i < n)%nat -> free i = false -> u0 i = s i) -> (4 * m / Q2R h0 + k) * (distance n u0 s * distance n u0 s) <= k * (r * r) ->
  exists N, forall max, (N <= max)%nat -> exists uf hf g steps,
    pseudo_solve n condense crit d c ImplicitEuler mass spatial load factorise max h0 u0 = Ok (uf, mk_status true false, hf, g, steps) /\ (steps <= N)%nat.
Proof.
  intros n condense free loc c mass spatial load factorise B s h0 r L k m crit d u0 K E Se D C0 K0' E0' Bk Be Out Small. pose proof Se as (NZ & NF & H0 & R0 & L0 & K0 & M0 & Nr & Mm & St & Fac).
  assert (Hp : 0 < Q2R h0) by (replace 0 with (Q2R 0) by (unfold Q2R; cbn; lra); now apply Qlt_Rlt).
  destruct (factor_range d (Q2R h0) k m ltac:(lra) Hp K0 M0) as [Fr Fl]. specialize (Fl (proj1 D)).
  set (q := factor d (Q2R h0) k m) in *. set (e0 := (m / Q2R h0 + k / 4) * (distance n u0 s * distance n u0 s)).
  set (Cc := K * (1 + E) * (10 / k) * e0).
  assert (EN : exists N, Cc * q ^ N < crit).
  { destruct (Req_dec Cc 0) as [Z|Z]; [exists 0%nat; rewrite Z; lra|].
    destruct (pow_lt_1_zero q ltac:(rewrite Rabs_pos_eq; lra) (crit / Rabs Cc)) as [N HN].
    { apply Rdiv_lt_0_compat; [exact C0 | now apply Rabs_pos_lt]. }
    exists N. specialize (HN N (Nat.le_refl _)). apply Rle_lt_trans with (Rabs (q ^ N) * Rabs Cc).
    - rewrite <- Rabs_mult, (Rmult_comm (q ^ N)). apply Rle_abs.
    - apply Rmult_lt_reg_r with (/ Rabs Cc); [apply Rinv_0_lt_compat; now apply Rabs_pos_lt|].
      rewrite Rmult_assoc, Rinv_r, Rmult_1_r by now apply Rabs_no_R0. exact HN. }
  destruct EN as [N HN]. exists (S N). intros max Hm.
  destruct (run_trace n condense crit d c ImplicitEuler mass spatial load factorise max h0 u0 NZ) as (us & hs & uf & st & hf & g & steps & R & Lk & U0 & Uk & Nn & S0 & Th & Cv & Steps).
  destruct (le_lt_dec steps N) as [Le|Gt].
  { specialize (Cv ltac:(lia)). exists uf, hf, g, steps. split; [|lia]. rewrite R. destruct st as [a b]. cbn in Nn, Cv. now subst. }
  destruct (pseudo_decay n condense free loc c mass spatial load factorise B s h0 r L k m crit d st u0 Se ltac:(lra) Out Small us hs steps U0 Steps N ltac:(lia)) as (h & Eh & Ar & En).
  fold q e0 in En. destruct (Steps N Gt) as (du & e & T1 & Eu & Up & _ & Ce).
  destruct (step_grows c h0 NZ NF H0 N h (hs N) Eh T1) as (_ & G1 & G2).
  set (a := evaluated n ImplicitEuler mass spatial (Q2R (hs N)) (us (pred N)) (us N)) in *.
  pose proof (proj1 (correction_solves n condense free loc _ _ load _ (us N) N du (Fin e) (Fac (Q2R (hs N)) (us N) ltac:(lra) Ar) Eu)) as Sy.
  assert (Sy' : solves_system n free (shifted ImplicitEuler mass (Q2R (hs N)) (B (us N))) (fun i => spatial (us N) i - load i) du).
  { eapply same_right; [|exact Sy]. intros i I. unfold a, evaluated. cbn [drift]. ring. }
  destruct (full_step n mass free spatial load B s r L k m Mm St L0 K0 Nr (Q2R (hs N)) (us N) du ltac:(lra) Ar Sy') as [_ Fs]. cbv zeta in Fs.
  assert (P0 : forall w t, 0 < t -> 0 <= product n w (times n mass w) / t) by (intros; unfold Rdiv; apply Rmult_le_pos; [apply Mm | now apply Rlt_le, Rinv_0_lt_compat]).
  assert (Ej : energy n mass k (Q2R (hs N)) (fun i => us N i - s i) <= q ^ N * e0).
  { eapply Rle_trans; [|exact En]. unfold energy. apply Rplus_le_compat_r. unfold Rdiv. apply Rmult_le_compat_l; [apply Mm|]. apply Rinv_le_contravar; lra. }
  assert (Du : length_of n du * length_of n du <= 10 / k * (q ^ N * e0)).
  { rewrite (length_square n du : _ = product n du du).
    pose proof (P0 (fun i => us N i - s i) (Q2R (hs N)) ltac:(lra)) as P1. pose proof (P0 (fun i => us N i - s i - du i) (Q2R (hs N)) ltac:(lra)) as P2.
    change (product n (fun i => us N i - s i) (times n mass (fun i => us N i - s i)) / Q2R (hs N) + k / 4 * product n (fun i => us N i - s i) (fun i => us N i - s i))
      with (energy n mass k (Q2R (hs N)) (fun i => us N i - s i)) in Fs.
    pose proof (Rle_trans _ _ _ Fs Ej) as Fs'. unfold energy in Ej.
    pose proof (squares_pos n (fun i => 1 * (us N i - s i) + 1 * (us N i - s i - du i))) as P3.
    assert (P4 : product n du du + product n (fun i => 1 * (us N i - s i) + 1 * (us N i - s i - du i)) (fun i => 1 * (us N i - s i) + 1 * (us N i - s i - du i))
      = 2 * product n (fun i => us N i - s i) (fun i => us N i - s i) + 2 * product n (fun i => us N i - s i - du i) (fun i => us N i - s i - du i)).
    { unfold product. rewrite <- !sum_scale, <- !sum_plus. apply sum_ext. intros; ring. }
    apply Rmult_le_reg_l with k; [exact K0|]. replace (k * (10 / k * (q ^ N * e0))) with (10 * (q ^ N * e0)) by (field; lra).
    set (x := product n (fun i => us N i - s i) (fun i => us N i - s i)) in *. set (y := product n (fun i => us N i - s i - du i) (fun i => us N i - s i - du i)) in *.
    assert (Hd : product n du du <= 2 * x + 2 * y) by lra. pose proof (Rmult_le_compat_l k _ _ (Rlt_le _ _ K0) Hd). lra. }
  assert (Bd : Rabs e <= K * (1 + E) * (length_of n du * length_of n du)).
  { refine (reported_bound n condense free loc (fun _ => a) load (factorise (Q2R (hs N))) (fun u => shifted ImplicitEuler mass (Q2R (hs N)) (B u)) s r _ K E N (us N) du e K0' E0' _ _ Ar Eu Sy).
    - intros u U. apply Fac; [lra | exact U].
    - intros u w U W. apply Bk; [lra | exact U | exact W].
    - intros Ct u w U. apply Be; [exact Ct | lra | exact U]. }
  assert (Er : Rabs e < crit).
  { eapply Rle_lt_trans; [exact Bd|]. eapply Rle_lt_trans; [apply Rmult_le_compat_l; [apply Rmult_le_pos; lra | exact Du]|].
    replace (K * (1 + E) * (10 / k * (q ^ N * e0))) with (Cc * q ^ N) by (unfold Cc; ring). exact HN. }
  destruct (Ce Er) as [Es Cs].
  exists uf, hf, g, steps. split; [|lia]. rewrite R. destruct st as [aa bb]. cbn in Nn, Cs. now subst.
Qed.
Print Assumptions c84_reported.

(** ** What does not hold *)

Lemma step_constant c h0 : (0 < ps_increment_at c)%Z -> forall j, (Z.of_nat j <= ps_increment_at c)%Z -> pseudo_time_step c h0 j = Ok h0.
Proof.
  intros P. induction j as [|j IH]; intros J; [reflexivity|]. cbn [pseudo_time_step]. rewrite IH by lia. cbn [bind]. unfold solver_iteration_update.
  destruct (negb _); [|reflexivity]. destruct (Z.eqb_spec (ps_increment_at c) 0); [lia|]. rewrite Z.mod_small by lia.
  destruct j; [reflexivity|]. reflexivity.
Qed.

(** The time step is never increased if there are not more iterations than [increment_at]; with the default options it is always
    the one at the start. *)
Theorem c84_step_refuted : forall n condense crit damping c sc mass spatial load factorise max h0 u0, (0 < ps_increment_at c)%Z ->
  (Z.of_nat max <= ps_increment_at c)%Z \/ (c = default_pseudo /\ max = default_max_iterations) ->
  exists uf st g k, pseudo_solve n condense crit damping c sc mass spatial load factorise max h0 u0 = Ok (uf, st, h0, g, k).
Proof.
  intros n condense crit damping c sc mass spatial load factorise max h0 u0 P M.
  assert (Mx : (Z.of_nat max <= ps_increment_at c)%Z) by (destruct M as [M|[-> ->]]; [exact M | cbn; lia]).
  destruct (run_trace n condense crit damping c sc mass spatial load factorise max h0 u0 ltac:(lia)) as (us & hs & uf & st & hf & g & k & R & Lk & _ & _ & _ & _ & Th & _).
  rewrite (step_constant c h0 P k ltac:(lia)) in Th. injection Th as <-. now exists uf, st, g, k.
Qed.
Print Assumptions c84_step_refuted.

Lemma only_product n vol x : product n (only vol x) (only vol x) = product n x (only vol x).
Proof. apply sum_ext. intros i I. unfold only. destruct (vol i); ring. Qed.

(** Reported convergence says nothing about the distance to a steady state: for every problem without growing modes, every start
    that solves the equations without time derivative, every criterion, and both schemes, all small time steps end the run with reported convergence
    after one iteration, which moves the unknowns with time derivative by no more than the time step times the residual. *)
Theorem c84_report_refuted : forall n free B crit damping c sc mass spatial load factorise u0 vol mu, (ps_increment_at c <> 0)%Z -> (1 <= ps_increment_factor c)%Z ->
  0 < crit -> 0 < mu -> (forall i, (i < n)%nat -> free i = true -> vol i = false -> spatial u0 i = load i) ->
  (forall w, within n free w -> mu * product n (only vol w) (only vol w) <= product n w (times n mass w)) ->
  (forall w, within n free w -> 0 <= product n w (times n (B u0) w)) ->
  (forall h, 0 < h -> full_factors n free (shifted sc mass h (B u0)) (factorise h u0)) ->
  exists H, 0 < H /\ forall max h0, (0 < h0)%Q -> Q2R h0 < H ->
    exists uf hf g, pseudo_solve n false crit damping c sc mass spatial load factorise (S max) h0 u0 = Ok (uf, mk_status true false, hf, g, 1%nat) /\
      mu * length_of n (only vol (fun i => uf i - u0 i)) <= Rabs damping * (Q2R h0 * length_of n (only free (fun i => spatial u0 i - load i))).
Proof.
  intros n free B crit damping c sc mass spatial load factorise u0 vol mu NZ NF C0 Mu Rest Ms Ps Fac.
  set (F := only free (fun i => spatial u0 i - load i)). set (f := length_of n F). pose proof (length_nonneg n F) as F0. fold f in F0.
  exists (crit * mu / (f * f + 1)). split; [apply Rdiv_lt_0_compat; [apply Rmult_lt_0_compat; assumption | nra]|].
  intros max h0 H0 Hs.
  assert (Hp : 0 < Q2R h0) by (replace 0 with (Q2R 0) by (unfold Q2R; cbn; lra); now apply Qlt_Rlt).
  destruct (run_trace n false crit damping c sc mass spatial load factorise (S max) h0 u0 NZ) as (us & hs & uf & st & hf & g & k & R & Lk & U0 & Uk & Nn & S0 & Th & Cv & Steps).
  assert (K : (0 < k)%nat) by (destruct k; [|lia]; specialize (Cv ltac:(lia)); rewrite (S0 eq_refl) in Cv; discriminate).
  destruct (Steps 0%nat K) as (du & e & A1 & A2 & A3 & A4 & A5). cbn [pred] in A2. rewrite U0 in *.
  assert (Eh : hs 0%nat = h0).
  { cbn [pseudo_time_step bind] in A1. unfold solver_iteration_update in A1. destruct (negb _); [|now injection A1].
    destruct (Z.eqb_spec (ps_increment_at c) 0); [contradiction|]. rewrite andb_false_r in A1. now injection A1. }
  rewrite Eh in *.
  pose proof (proj1 (correction_solves n false free (fun _ => false) _ _ load _ u0 0 du (Fin e) (Fac (Q2R h0) Hp) A2)) as Sy.
  assert (W : within n free du) by (intros i I Fr; specialize (Sy i I); rewrite Fr in Sy; exact Sy).
  set (a := fun i => evaluated n sc mass spatial (Q2R h0) u0 u0 i - load i) in *.
  assert (Ea : forall i, a i = spatial u0 i - load i) by (intros; unfold a, evaluated; rewrite first_drift; ring).
  assert (Ee : e = product n du a).
  { unfold update_step in A2. cbn [solve_update_step] in A2. injection A2 as E1 E2. rewrite <- E2, <- E1. reflexivity. }
  assert (Ef : product n du a = product n (only vol du) F).
  { apply sum_ext. intros i I. transitivity (du i * (spatial u0 i - load i)); [now rewrite <- Ea|]. unfold F, only. destruct (free i) eqn:Fr; [|rewrite (W i I Fr); destruct (vol i); ring].
    destruct (vol i) eqn:V; [reflexivity|]. rewrite (Rest i I Fr V). ring. }
  assert (Id : lead sc / Q2R h0 * product n du (times n mass du) + product n du (times n (B u0) du) = product n du a).
  { transitivity (product n du (fun i => lead sc / Q2R h0 * times n mass du i + 1 * times n (B u0) du i)); [rewrite product_right; ring|].
    rewrite (within_product n free du _ W), (within_product n free du a W). apply product_ext; trivial. intros i I. unfold only. specialize (Sy i I).
    destruct (free i); [|reflexivity]. rewrite <- Sy. unfold times, shifted. rewrite <- !sum_scale, <- sum_plus. apply sum_ext. intros; ring. }
  pose proof (Ms du W) as M1. pose proof (Ps du W) as P1.
  set (v := only vol du) in *. pose proof (length_nonneg n v) as V0. rewrite <- (length_square n v : _ = product n v v) in M1.
  assert (Le : 1 <= lead sc) by (destruct sc; cbn; lra).
  assert (Bd : Rabs (product n v F) <= length_of n v * f) by apply product_bound.
  set (x := length_of n v) in *.
  assert (Hx : mu * x <= Q2R h0 * f).
  { assert (Y : mu * (x * x) <= Q2R h0 * (x * f)).
    { assert (Z : / Q2R h0 * (mu * (x * x)) <= x * f).
      { apply Rle_trans with (product n v F); [|apply Rle_trans with (Rabs (product n v F)); [apply Rle_abs | exact Bd]].
        rewrite <- Ef, <- Id. assert (Hi : 0 < / Q2R h0) by now apply Rinv_0_lt_compat.
        assert (0 <= mu * (x * x)) by (apply Rmult_le_pos; [lra | apply Rmult_le_pos; assumption]).
        assert (L1 : / Q2R h0 * (mu * (x * x)) <= lead sc / Q2R h0 * (mu * (x * x))).
        { apply Rmult_le_compat_r; [assumption|]. unfold Rdiv. rewrite <- (Rmult_1_l (/ Q2R h0)) at 1. apply Rmult_le_compat_r; lra. }
        assert (L2 : lead sc / Q2R h0 * (mu * (x * x)) <= lead sc / Q2R h0 * product n du (times n mass du)).
        { apply Rmult_le_compat_l; [apply Rlt_le, Rdiv_lt_0_compat; lra | exact M1]. }
        lra. }
      apply (Rmult_le_compat_l (Q2R h0)) in Z; [|lra]. rewrite <- Rmult_assoc, Rinv_r, Rmult_1_l in Z by lra. exact Z. }
    destruct (Rle_lt_or_eq_dec 0 x V0) as [X|X]; [|rewrite <- X, Rmult_0_r; apply Rmult_le_pos; lra].
    apply Rmult_le_reg_l with x; [exact X|]. lra. }
  assert (Er : Rabs e < crit).
  { rewrite Ee, Ef. eapply Rle_lt_trans; [exact Bd|]. apply Rmult_lt_reg_l with mu; [exact Mu|].
    apply Rle_lt_trans with (Q2R h0 * (f * f)).
    - pose proof (Rmult_le_compat_r f _ _ F0 Hx). lra.
    - apply (Rmult_lt_compat_r (f * f + 1)) in Hs; [|nra]. unfold Rdiv in Hs. rewrite Rmult_assoc, Rinv_l, Rmult_1_r in Hs by nra. nra. }
  destruct (A5 Er) as [<- Cs]. exists uf, hf, g. split; [rewrite R; destruct st as [aa bb]; cbn in Nn, Cs; now subst|].
  rewrite (length_ext n _ (fun i => - damping * v i)).
  - rewrite length_scale, Rabs_Ropp. fold x. rewrite <- Rmult_assoc, (Rmult_comm mu), Rmult_assoc. apply Rmult_le_compat_l; [apply Rabs_pos | exact Hx].
  - intros i I. unfold v, only. destruct (vol i); [|ring]. rewrite <- Uk, A3. unfold update_solution. ring.
Qed.
Print Assumptions c84_report_refuted.

(** One equation with a curved right side. *)
Definition curve (u : nat -> R) (i : nat) : R := - 2 * (u 0%nat * u 0%nat) + 4 * u 0%nat + 4.
Definition curve_matrix (u : nat -> R) (i j : nat) : R := 4 - 4 * u 0%nat.
Definition curve_factors (h : R) (u : nat -> R) : factors :=
  mk_factors (fun _ _ => / (3 / 2 / h * 1 + (4 - 4 * u 0%nat))) (fun _ _ => 0) (fun _ _ => 0) (fun _ _ => 0).

(** With BDF2 an iteration that changes nothing need not have found a steady state: the difference of the last two iterates may
    balance the steady equations. Convergence is reported there for every criterion. *)
Theorem c84_bdf2_refuted : forall crit max, 0 < crit <= 12 -> (2 <= max)%nat ->
  exists uf hf g, pseudo_solve 1 false crit 1 default_pseudo BDF2 (fun _ _ => 1) curve (fun _ => 0) curve_factors max (1 # 2) (fun _ => 1) =
      Ok (uf, mk_status true false, hf, g, 2%nat) /\
    uf 0%nat = -1 /\ curve uf 0%nat = -2 /\ ~ steady 1 (fun _ => true) curve (fun _ => 0) uf /\
    full_factors 1 (fun _ => true) (shifted BDF2 (fun _ _ => 1) (1 / 2) (curve_matrix (fun _ => 1))) (curve_factors (1 / 2) (fun _ => 1)) /\
    full_factors 1 (fun _ => true) (shifted BDF2 (fun _ _ => 1) (1 / 2) (curve_matrix uf)) (curve_factors (1 / 2) uf).
Proof.
  intros crit max C M.
  destruct (run_trace 1 false crit 1 default_pseudo BDF2 (fun _ _ => 1) curve (fun _ => 0) curve_factors max (1 # 2) (fun _ => 1) ltac:(discriminate))
    as (us & hs & uf & st & hf & g & k & R & Lk & U0 & Uk & Nn & S0 & Th & Cv & Steps).
  assert (K : (0 < k)%nat) by (destruct k; [|lia]; specialize (Cv ltac:(lia)); rewrite (S0 eq_refl) in Cv; discriminate).
  assert (H2 : Q2R (1 # 2) = 1 / 2) by (unfold Q2R; cbn; lra).
  destruct (Steps 0%nat K) as (du & e & A1 & A2 & A3 & A4 & A5). cbn in A1. injection A1 as Eh. rewrite <- Eh, H2 in A2. cbn [pred] in A2. rewrite U0 in A2, A3.
  unfold update_step in A2. cbn [solve_update_step] in A2. injection A2 as E1 E2.
  assert (D0 : du 0%nat = 2).
  { rewrite <- E1. unfold times, evaluated, drift, times, curve, curve_factors. cbn [sum inv]. field. }
  assert (e = 12).
  { rewrite <- E2. unfold product. cbn [sum]. rewrite E1, D0. unfold evaluated, drift, times, curve. cbn [sum]. field. }
  subst e.
  assert (K1 : (1 < k)%nat).
  { destruct (le_lt_dec k 1) as [Le|]; [|assumption]. assert (k = 1)%nat by lia. subst k. specialize (Cv ltac:(lia)). specialize (A4 Cv eq_refl). rewrite Rabs_pos_eq in A4 by lra. lra. }
  assert (U1 : us 1%nat 0%nat = -1) by (rewrite A3; unfold update_solution; rewrite D0; ring).
  destruct (Steps 1%nat K1) as (dv & ev & B1 & B2 & B3 & B4 & B5). cbn in B1. injection B1 as Eh1. rewrite <- Eh1, H2 in B2. cbn [pred] in B2. rewrite U0 in B2.
  unfold update_step in B2. cbn [solve_update_step] in B2. injection B2 as G1 G2.
  assert (Rz : evaluated 1 BDF2 (fun _ _ : nat => 1) curve (1 / 2) (fun _ => 1) (us 1%nat) 0%nat = 0).
  { unfold evaluated, drift, times, curve. cbn [sum]. rewrite U1. field. }
  assert (D1 : dv 0%nat = 0) by (rewrite <- G1; unfold times; cbn [sum]; rewrite Rz; ring).
  assert (Ev : ev = 0) by (rewrite <- G2; unfold product; cbn [sum]; rewrite Rz; ring).
  rewrite Ev, Rabs_R0 in B5. destruct (B5 (proj1 C)) as [<- Cs].
  assert (Uf : uf 0%nat = -1) by (rewrite <- Uk, B3; unfold update_solution; rewrite D1, U1; ring).
  exists uf, hf, g. split; [rewrite R; destruct st as [aa bb]; cbn in Nn, Cs; now subst|]. split; [exact Uf|].
  assert (Cu : curve uf 0%nat = -2) by (unfold curve; rewrite Uf; ring). split; [exact Cu|].
  split; [intros St; specialize (St 0%nat ltac:(lia) eq_refl); rewrite Cu in St; lra|].
  split; (split; intros i j I J; assert (i = 0)%nat by lia; assert (j = 0)%nat by lia; subst; [discriminate|]; intros _ _;
    unfold compose, block, shifted, lead, curve_matrix, curve_factors; cbn [sum inv andb Nat.eqb]; rewrite ?Uf; split; field; lra).
Qed.
Print Assumptions c84_bdf2_refuted.

(** ** An example: the equations of [c79_example]; the first unknown has a time derivative, the second one has none. *)

Definition first_mass (i j : nat) : R := match i, j with 0%nat, 0%nat => 1 | _, _ => 0 end.
Definition slow_plain (h : R) (u : nat -> R) : factors :=
  mk_factors (fun i j => match i, j with 0%nat, 0%nat => / (1 / h * 1 + (1 + u 0%nat / 2)) | 1%nat, 1%nat => 1 | _, _ => 0 end) (fun _ _ => 0) (fun _ _ => 0) (fun _ _ => 0).
Definition slow_condensed (h : R) (u : nat -> R) : factors :=
  mk_factors (fun i j => match i, j with 1%nat, 1%nat => 1 | _, _ => 0 end) (fun _ _ => 0) (fun _ _ => 0)
    (fun i j => match i, j with 0%nat, 0%nat => / (1 / h * 1 + (1 + u 0%nat / 2)) | _, _ => 0 end).
Definition slow_factors (condense : bool) := if condense then slow_condensed else slow_plain.
Definition bump (i : nat) : R := if (i =? 0)%nat then 1 / 8 else 0.

Example c84_example : forall condense,
  pseudo_setting 2 condense (fun _ => true) (fun i => i =? 0)%nat (mk_pseudo 100 2 10) first_mass bent (fun _ => 0) (slow_factors condense) bent_matrix (fun _ => 0)
    1 (1 / 2) (1 / 2) (3 / 4) 1 /\
  (4 * 1 / Q2R 1 + 3 / 4) * (distance 2 bump (fun _ => 0) * distance 2 bump (fun _ => 0)) <= 3 / 4 * (1 / 2 * (1 / 2)) /\
  pseudo_time_step (mk_pseudo 100 2 10) 1 7 = Ok 100%Q /\ bent bump 0 <> 0.
Proof.
  intros condense. destruct (c79_example condense) as ((R0 & L0 & M0 & Reg & _) & _ & _ & _ & _ & _ & Co & _).
  assert (Q1 : Q2R 1 = 1) by (unfold Q2R; cbn; lra).
  split; [|split; [|split]].
  - split; [discriminate|]. split; [cbn; lia|]. split; [reflexivity|]. split; [lra|]. split; [lra|]. split; [lra|]. split; [lra|]. split; [lra|].
    split; [|split].
    + split; [intros i j I J; two i I; two j J; reflexivity|]. intros w. unfold product, times, first_mass. cbn [sum].
      pose proof (Rle_0_sqr (w 0%nat)) as A. pose proof (Rle_0_sqr (w 1%nat)) as B'. unfold Rsqr in A, B'. lra.
    + split.
      * intros i I _. pose proof (rs_solution _ _ _ _ _ _ _ _ Reg i I eq_refl) as X. cbv beta in X. lra.
      * intros u U i I _ t T. pose proof (rs_derivative _ _ _ _ _ _ _ _ Reg u U i I eq_refl t T) as X.
        apply (is_derive_ext (fun t => bent (line (fun _ => 0) u t) i - 0)); [intros; match goal with |- ?x = ?y => change (@eq R x y) end; ring | exact X].
      * apply (rs_change _ _ _ _ _ _ _ _ Reg).
      * intros u w U _. apply Co, U.
    + intros h u H U.
      assert (Near : - (1 / 2) <= u 0%nat <= 1 / 2).
      { destruct U as [_ D]. unfold distance in D. pose proof (entry_le 2 (fun i => u i - 0) 0 ltac:(lia)) as E. cbv beta in E. rewrite Rminus_0_r in E. apply Rabs_le_between. lra. }
      assert (Nz : / h + (1 + u 0%nat / 2) <> 0) by (assert (0 < / h) by (now apply Rinv_0_lt_compat); intros Z; lra).
      assert (Nz' : 1 / h * 1 + (1 + u 0%nat / 2) <> 0) by (unfold Rdiv; rewrite Rmult_1_l, Rmult_1_r; exact Nz).
      destruct condense; cbn [factors_for slow_factors].
      * split; [reflexivity|]. split; [|split; [|split]].
        -- split; intros i j I J; two i I; two j J; cbn [slow_condensed inner_solve compose block sum shifted lead bent_matrix first_mass Nat.eqb andb global negb]; try discriminate; intros; repeat split;
             unfold compose, block, shifted, lead, bent_matrix, first_mass; cbn; try ring; rewrite ?Rplus_0_l, ?Rmult_0_l, ?Rmult_0_r, ?Rplus_0_r; apply Rinv_r || apply Rinv_l; assumption.
        -- intros i j I J. two i I; two j J; unfold slow_condensed, compose, block, shifted, lead, bent_matrix, first_mass; cbn; ring.
        -- intros i j I J. two i I; two j J; unfold slow_condensed, compose, block, shifted, lead, bent_matrix, first_mass; cbn; ring.
        -- split; intros i j I J; two i I; two j J; unfold slow_condensed, compose, block, shifted, lead, bent_matrix, first_mass; cbn; try discriminate; intros; repeat split; ring.
      * split; intros i j I J; two i I; two j J; unfold slow_plain, compose, block, shifted, lead, bent_matrix, first_mass; cbn; try discriminate; intros; repeat split; try ring; rewrite ?Rplus_0_l, ?Rmult_0_l, ?Rmult_0_r, ?Rplus_0_r; apply Rinv_r || apply Rinv_l; assumption.
  - rewrite Q1. unfold distance. rewrite length_square. unfold bump. cbn [sum Nat.eqb]. lra.
  - vm_compute. reflexivity.
  - unfold bent, bump. cbn [Nat.eqb]. lra.
Qed.
