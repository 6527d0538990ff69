(** C79: convergence of Newton's method near a regular solution. *)
From Coq Require Import Reals List Arith Bool Lra Lia.
From Coquelicot Require Import Coquelicot.
From Verif Require Import M_Solve M_Condense S_Condense L_Solve P_Condense S_Newton L_Newton.
Import ListNotations.
Open Scope R_scope.

Lemma pow_two_step a b x : 0 <= a -> b <= a * a -> 0 <= b -> forall m, a <= x ^ (2 ^ m) -> 0 <= x -> b <= x ^ (2 ^ S m).
Proof.
  intros A B B0 m H X. replace (2 ^ S m)%nat with (2 ^ m + 2 ^ m)%nat by (cbn; lia). rewrite pow_add.
  eapply Rle_trans; [exact B|]. apply Rmult_le_compat; assumption.
Qed.

Section Solve.
Variable n : nat.
Variable condense : bool.
Variables free loc : nat -> bool.
Variable apply : (nat -> R) -> nat -> R.
Variable load : nat -> R.
Variable factorise : (nat -> R) -> factors.
Variable A : (nat -> R) -> nat -> nat -> R.
Variable s : nat -> R.
Variables r L M : R.
Let F (u : nat -> R) (i : nat) : R := apply u i - load i.
Hypothesis reg : regular_solution n free F A s r L M.
Hypothesis r_pos : 0 <= r.
Hypothesis L_pos : 0 <= L.
Hypothesis M_pos : 0 <= M.
Hypothesis fac : forall u, around n free s r u -> factors_for condense n free loc (A u) (factorise u).

(** Factor of a step with damping [d]. *)
Definition rate (d : R) : R := Rabs (1 - d) + Rabs d * (M * L * r).

Lemma rate_nonneg d : 0 <= rate d.
Proof.
  unfold rate. pose proof (Rabs_pos (1 - d)). pose proof (Rabs_pos d). assert (0 <= M * L * r) by (repeat apply Rmult_le_pos; assumption).
  assert (0 <= Rabs d * (M * L * r)) by (apply Rmult_le_pos; assumption). lra.
Qed.

Lemma dist_nonneg u : 0 <= distance n u s.
Proof. apply length_nonneg. Qed.

Lemma newton_step d u du : rate d <= 1 -> around n free s r u -> solves_system n free (A u) (F u) du ->
  around n free s r (update_solution d u du) /\ distance n (update_solution d u du) s <= rate d * distance n u s /\
  (d = 1 -> M * L * distance n (update_solution d u du) s <= (M * L * distance n u s) * (M * L * distance n u s)).
Proof.
  intros T U Sy. destruct (damped_error n free F A s r L M reg L_pos M_pos d u du U Sy) as [O B]. pose proof (dist_nonneg u) as D0.
  assert (Ml : 0 <= M * L) by (apply Rmult_le_pos; assumption).
  assert (Q : M * L * distance n u s * distance n u s <= M * L * r * distance n u s).
  { apply Rmult_le_compat_r; [exact D0|]. apply Rmult_le_compat_l; [exact Ml | apply U]. }
  assert (B2 : distance n (update_solution d u du) s <= rate d * distance n u s).
  { eapply Rle_trans; [exact B|]. unfold rate. pose proof (Rmult_le_compat_l (Rabs d) _ _ (Rabs_pos d) Q). lra. }
  split; [split; [exact O|] | split; [exact B2|]].
  - pose proof (rate_nonneg d). destruct U as [_ U]. eapply Rle_trans; [exact B2|].
    apply Rle_trans with (1 * distance n u s); [apply Rmult_le_compat_r; assumption | lra].
  - intros ->. replace (1 - 1) with 0 in B by ring. rewrite Rabs_R0, Rabs_R1 in B.
    pose proof (Rmult_le_compat_l (M * L) _ _ Ml B). lra.
Qed.

(** The last iteration of a solve. *)
Lemma newton_loop crit d : rate d <= 1 -> forall k it u st tr uf stf, st_nan st = false -> around n free s r u ->
  solve_loop crit d (update_step n condense apply load factorise) it (S k) u st = (tr, uf, stf) ->
  exists m v du e, (m <= k)%nat /\ length tr = (3 * S m)%nat /\ around n free s r v /\
    distance n v s <= rate d ^ m * distance n u s /\
    (d = 1 -> M * L * distance n v s <= (M * L * distance n u s) ^ (2 ^ m)) /\
    update_step n condense apply load factorise (it + m) v = (du, Fin e) /\ solves_system n free (A v) (F v) du /\
    uf = update_solution d v du /\ stf = mk_status (if Rlt_dec (Rabs e) crit then true else false) false /\
    (st_converged stf = false -> m = k).
Proof.
  intros T. induction k as [|k IH]; intros it u st tr uf stf Hn U H.
  - cbn [solve_loop] in H. destruct (update_step n condense apply load factorise it u) as [du ip] eqn:E.
    destruct (correction_solves n condense free loc (A u) apply load factorise u it du ip (fac u U) E) as [Sy (e & ->)].
    rewrite fin_status, Hn in H. cbn [st_nan st_converged] in H.
    exists 0%nat, u, du, e. rewrite Nat.add_0_r.
    destruct (Rlt_dec (Rabs e) crit); injection H as <- <- <-; (split; [lia|]; split; [reflexivity|]; split; [exact U|];
      split; [cbn; lra|]; split; [intros _; cbn; lra|]; split; [exact E|]; split; [exact Sy|]; split; [reflexivity|]; split; [reflexivity|]; reflexivity).
  - remember (S k) as k1 eqn:K1. cbn [solve_loop] in H. destruct (update_step n condense apply load factorise it u) as [du ip] eqn:E.
    destruct (correction_solves n condense free loc (A u) apply load factorise u it du ip (fac u U) E) as [Sy (e & ->)].
    rewrite fin_status, Hn in H. cbn [st_nan st_converged] in H.
    destruct (Rlt_dec (Rabs e) crit) as [C|C] eqn:EC.
    + injection H as <- <- <-. exists 0%nat, u, du, e. rewrite Nat.add_0_r, EC.
      split; [lia|]; split; [reflexivity|]; split; [exact U|].
      split; [cbn; lra|]; split; [intros _; cbn; lra|]; split; [exact E|]; split; [exact Sy|]; split; [reflexivity|]; split; [reflexivity|]. discriminate.
    + destruct (solve_loop crit d (update_step n condense apply load factorise) (S it) k1 (update_solution d u du) (mk_status false false)) as [[tr1 uf1] stf1] eqn:E1.
      injection H as <- <- <-. subst k1. destruct (newton_step d u du T U Sy) as (U1 & D1 & Q1).
      destruct (IH (S it) (update_solution d u du) (mk_status false false) tr1 uf1 stf1 eq_refl U1 E1) as (m & v & dv & ev & Hm & Hl & V & Dv & Qv & Ev & Sv & Hu & Hs & Hc).
      exists (S m), v, dv, ev. split; [lia|]. split; [cbn [length]; lia|]. split; [exact V|]. split; [|split; [|split; [|split; [|split; [|split]]]]].
      * eapply Rle_trans; [exact Dv|]. replace (rate d ^ S m * distance n u s) with (rate d ^ m * (rate d * distance n u s)) by (cbn [pow]; ring).
        apply Rmult_le_compat_l; [apply pow_le, rate_nonneg | exact D1].
      * intros D. specialize (Qv D). specialize (Q1 D). assert (Ml : 0 <= M * L) by (apply Rmult_le_pos; assumption).
        assert (P0 : 0 <= M * L * distance n (update_solution d u du) s) by (apply Rmult_le_pos; [exact Ml | apply dist_nonneg]).
        eapply Rle_trans; [exact Qv|]. replace (2 ^ S m)%nat with (2 * 2 ^ m)%nat by (cbn; lia). rewrite pow_mult. apply pow_incr. split; [exact P0|].
        replace ((M * L * distance n u s) ^ 2) with ((M * L * distance n u s) * (M * L * distance n u s)) by ring. exact Q1.
      * rewrite <- Nat.add_succ_comm. exact Ev.
      * exact Sv.
      * exact Hu.
      * exact Hs.
      * intros Q. rewrite (Hc Q). reflexivity.
Qed.

(** The vector that is multiplied with the correction for the reported error. *)
Lemma within_product w x : within n free w -> product n w x = product n w (only free x).
Proof. intros W. apply sum_ext. intros i I. unfold only. destruct (free i) eqn:E; [reflexivity|]. rewrite (W i I E). ring. Qed.

Lemma reported_bound K E it u du e : 0 <= K -> 0 <= E ->
  (forall u w, around n free s r u -> within n free w -> length_of n (only free (times n (A u) w)) <= K * length_of n w) ->
  (condense = true -> forall u w, around n free s r u -> length_of n (only free (times n (extension_trans (factorise u)) (only free w))) <= E * length_of n (only free w)) ->
  around n free s r u -> update_step n condense apply load factorise it u = (du, Fin e) -> solves_system n free (A u) (F u) du ->
  Rabs e <= K * (1 + E) * (length_of n du * length_of n du).
Proof.
  intros K0 E0 Bk Be U Eq Sy.
  assert (W : within n free du) by (intros i I Fr; specialize (Sy i I); rewrite Fr in Sy; exact Sy).
  pose proof (length_nonneg n du) as P.
  assert (Rf : length_of n (only free (F u)) <= K * length_of n du).
  { rewrite (length_ext n _ (only free (times n (A u) du))); [apply Bk; assumption|]. intros i I. unfold only. specialize (Sy i I). destruct (free i); [symmetry; exact Sy | reflexivity]. }
  pose proof (length_nonneg n (only free (F u))) as P2.
  assert (Big : exists g, e = product n du g /\ length_of n (only free g) <= (1 + E) * length_of n (only free (F u))).
  { unfold update_step in Eq. pose proof (fac u U) as Fa. unfold factors_for in Fa. destruct condense; cbn [solve_update_step] in Eq; injection Eq as Edu Ee.
    - set (ET := extension_trans (factorise u)) in *. exists (fun i => F u i + times n ET (F u) i). split; [rewrite <- Ee, <- Edu; reflexivity|].
      rewrite (length_ext n _ (fun i => only free (F u) i + only free (times n ET (only free (F u))) i)).
      + eapply Rle_trans; [apply length_plus|]. specialize (Be eq_refl u (F u) U). fold ET in Be. lra.
      + intros i I. unfold only at 1 2 3. destruct (free i); [|ring]. f_equal. destruct Fa as (Lf & Iz & _ & It & _).
        apply times_ext; [|exact I]. intros a b Ia Ib. unfold only. destruct (free b) eqn:Fb; [reflexivity|].
        assert (Z : ET a b = 0); [|rewrite Z; ring]. unfold ET. rewrite (It a b Ia Ib). unfold compose. rewrite sum_zero; [ring|].
        intros k Hk. destruct Iz as [Iz _]. rewrite (Iz k b Hk Ib); [ring|]. destruct (loc b) eqn:Lb; [|apply andb_false_r].
        rewrite (Lf b Ib Lb) in Fb. discriminate.
    - exists (F u). split; [rewrite <- Ee, <- Edu; reflexivity|]. pose proof (Rmult_le_pos E _ E0 P2). lra. }
  destruct Big as (g & -> & Bg). rewrite within_product by exact W. eapply Rle_trans; [apply product_bound|].
  replace (K * (1 + E) * (length_of n du * length_of n du)) with (length_of n du * ((1 + E) * (K * length_of n du))) by ring.
  apply Rmult_le_compat_l; [exact P|]. eapply Rle_trans; [exact Bg|]. apply Rmult_le_compat_l; [lra | exact Rf].
Qed.

End Solve.

(** ** Theorems *)

(** What the theorems suppose of the equations, with or without static condensation. *)
Definition newton_setting (n : nat) (condense : bool) (free loc : nat -> bool) (apply : (nat -> R) -> nat -> R) (load : nat -> R)
    (factorise : (nat -> R) -> factors) (A : (nat -> R) -> nat -> nat -> R) (s : nat -> R) (r L M : R) : Prop :=
  0 <= r /\ 0 <= L /\ 0 <= M /\ regular_solution n free (fun u i => apply u i - load i) A s r L M /\
  forall u, around n free s r u -> factors_for condense n free loc (A u) (factorise u).

(** Without damping the distance to the solution, in units of 1/(M L), is squared in every iteration. *)
Theorem c79_quadratic : forall n condense free loc apply load factorise A s r L M max crit u0 tr uf st,
  newton_setting n condense free loc apply load factorise A s r L M -> M * L * r <= 1 -> around n free s r u0 ->
  nl_solve max crit 1 (update_step n condense apply load factorise) u0 = (tr, uf, st) ->
  exists steps, (steps <= max)%nat /\ length tr = (3 * steps)%nat /\ st_nan st = false /\ (st_converged st = false -> steps = max) /\
    around n free s r uf /\ M * L * distance n uf s <= (M * L * distance n u0 s) ^ (2 ^ steps).
Proof.
  intros n condense free loc apply load factorise A s r L M max crit u0 tr uf st (R0 & L0 & M0 & Reg & Fa) Q U H.
  assert (Ra : rate r L M 1 <= 1) by (unfold rate; replace (1 - 1) with 0 by ring; rewrite Rabs_R0, Rabs_R1; lra).
  destruct max as [|max].
  - cbn in H. injection H as <- <- <-. exists 0%nat. repeat match goal with |- _ /\ _ => split end; trivial; try lia; try apply U. cbn. lra.
  - unfold nl_solve in H. destruct (newton_loop n condense free loc apply load factorise A s r L M Reg R0 L0 M0 Fa crit 1 Ra max 0 u0 reset_status tr uf st eq_refl U H)
      as (m & v & du & e & Hm & Hl & V & Dv & Qv & Ev & Sv & Hu & Hs & Hc).
    destruct (newton_step n free apply load A s r L M Reg R0 L0 M0 1 v du Ra V Sv) as (V1 & D1 & Q1). specialize (Q1 eq_refl). specialize (Qv eq_refl).
    exists (S m). subst uf st. split; [lia|]. split; [exact Hl|]. split; [reflexivity|]. split; [intros X; rewrite (Hc X); reflexivity|]. split; [exact V1|].
    assert (Ml : 0 <= M * L) by (apply Rmult_le_pos; assumption).
    assert (P : forall x, 0 <= M * L * distance n x s) by (intros; apply Rmult_le_pos; [exact Ml | apply length_nonneg]).
    apply (pow_two_step (M * L * distance n v s)); auto.
Qed.
Print Assumptions c79_quadratic.

(** With damping the distance shrinks at least by a fixed factor in every iteration. *)
Theorem c79_damped : forall n condense free loc apply load factorise A s r L M max crit d u0 tr uf st,
  newton_setting n condense free loc apply load factorise A s r L M -> rate r L M d <= 1 -> around n free s r u0 ->
  nl_solve max crit d (update_step n condense apply load factorise) u0 = (tr, uf, st) ->
  exists steps, (steps <= max)%nat /\ length tr = (3 * steps)%nat /\ st_nan st = false /\ (st_converged st = false -> steps = max) /\
    around n free s r uf /\ distance n uf s <= (Rabs (1 - d) + Rabs d * (M * L * r)) ^ steps * distance n u0 s.
Proof.
  intros n condense free loc apply load factorise A s r L M max crit d u0 tr uf st (R0 & L0 & M0 & Reg & Fa) Ra U H.
  destruct max as [|max].
  - cbn in H. injection H as <- <- <-. exists 0%nat. repeat match goal with |- _ /\ _ => split end; trivial; try lia; try apply U. cbn. lra.
  - unfold nl_solve in H. destruct (newton_loop n condense free loc apply load factorise A s r L M Reg R0 L0 M0 Fa crit d Ra max 0 u0 reset_status tr uf st eq_refl U H)
      as (m & v & du & e & Hm & Hl & V & Dv & Qv & Ev & Sv & Hu & Hs & Hc).
    destruct (newton_step n free apply load A s r L M Reg R0 L0 M0 d v du Ra V Sv) as (V1 & D1 & _).
    exists (S m). subst uf st. split; [lia|]. split; [exact Hl|]. split; [reflexivity|]. split; [intros X; rewrite (Hc X); reflexivity|]. split; [exact V1|].
    fold (rate r L M d). eapply Rle_trans; [exact D1|]. cbn [pow]. rewrite Rmult_assoc. apply Rmult_le_compat_l; [apply rate_nonneg; assumption | exact Dv].
Qed.
Print Assumptions c79_damped.

(** If the linearization is bounded (and with condensation the elimination too) the solver reports convergence within a
    number of iterations given by the constants alone, whatever the starting point. *)
Theorem c79_reported : forall n condense free loc apply load factorise A s r L M K E crit d,
  newton_setting n condense free loc apply load factorise A s r L M -> rate r L M d < 1 -> 0 <= K -> 0 <= E -> 0 < crit ->
  (forall u w, around n free s r u -> within n free w -> length_of n (only free (times n (A u) w)) <= K * length_of n w) ->
  (condense = true -> forall u w, around n free s r u ->
     length_of n (only free (times n (extension_trans (factorise u)) (only free w))) <= E * length_of n (only free w)) ->
  exists N, forall max u0 tr uf st, (N < max)%nat -> around n free s r u0 ->
  nl_solve max crit d (update_step n condense apply load factorise) u0 = (tr, uf, st) ->
  st_converged st = true /\ (length tr <= 3 * S N)%nat.
Proof.
  intros n condense free loc apply load factorise A s r L M K E crit d (R0 & L0 & M0 & Reg & Fa) Ra K0 E0 C0 Bk Be.
  set (B := K * (1 + E) * ((1 + M * L * r) * (1 + M * L * r)) * (r * r)).
  assert (Q0 : 0 <= M * L * r) by (repeat apply Rmult_le_pos; assumption).
  assert (B0 : 0 <= B) by (unfold B; repeat apply Rmult_le_pos; lra).
  pose proof (rate_nonneg r L M R0 L0 M0 d) as Rn.
  destruct (pow_lt_1_zero (rate r L M d) ltac:(rewrite Rabs_pos_eq; assumption) (Rmin 1 (crit / (B + 1)))
    ltac:(apply Rmin_pos; [lra | apply Rdiv_lt_0_compat; lra])) as (N & HN).
  exists N.
  assert (Small : forall u it du e m, (N <= m)%nat -> around n free s r u -> distance n u s <= rate r L M d ^ m * r ->
    update_step n condense apply load factorise it u = (du, Fin e) -> solves_system n free (A u) (fun i => apply u i - load i) du -> Rabs e < crit).
  { intros u it du e m Hm U D Eq Sy.
    pose proof (reported_bound n condense free loc apply load factorise A s r Fa K E it u du e K0 E0 Bk Be U Eq Sy) as Rb.
    destruct (correction_length n free (fun u i => apply u i - load i) A s r L M Reg L0 M0 u du U Sy) as [Cl _].
    pose proof (length_nonneg n du) as Ld. set (q := rate r L M d ^ m) in *.
    assert (q0 : 0 <= q) by (apply pow_le; exact Rn).
    specialize (HN m Hm). fold q in HN. rewrite Rabs_pos_eq in HN by exact q0.
    pose proof (Rmin_l 1 (crit / (B + 1))). pose proof (Rmin_r 1 (crit / (B + 1))).
    assert (Bd : length_of n du <= (1 + M * L * r) * (q * r)).
    { eapply Rle_trans; [exact Cl|]. apply Rmult_le_compat_l; [lra | exact D]. }
    assert (Sq : length_of n du * length_of n du <= ((1 + M * L * r) * (q * r)) * ((1 + M * L * r) * (q * r))) by (apply Rmult_le_compat; assumption).
    assert (KE : 0 <= K * (1 + E)) by (apply Rmult_le_pos; lra).
    pose proof (Rmult_le_compat_l _ _ _ KE Sq) as X.
    assert (Y : K * (1 + E) * ((1 + M * L * r) * (q * r) * ((1 + M * L * r) * (q * r))) = B * (q * q)) by (unfold B; ring).
    assert (Z : B * (q * q) <= B * q). { apply Rmult_le_compat_l; [exact B0|]. rewrite <- (Rmult_1_r q) at 3. apply Rmult_le_compat_l; lra. }
    assert (V : (B + 1) * q < crit).
    { apply Rlt_le_trans with ((B + 1) * (crit / (B + 1))); [apply Rmult_lt_compat_l; lra | apply Req_le; field; lra]. }
    assert (W : B * q <= (B + 1) * q) by lra. lra. }
  intros max u0 tr uf st Hmax U H. destruct max as [|max]; [lia|]. unfold nl_solve in H.
  assert (General : forall k it u st0 tr uf st m0, st_nan st0 = false -> around n free s r u -> distance n u s <= rate r L M d ^ m0 * r -> (N < m0 + S k)%nat -> (m0 <= N)%nat ->
    solve_loop crit d (update_step n condense apply load factorise) it (S k) u st0 = (tr, uf, st) -> st_converged st = true /\ (length tr <= 3 * (S N - m0))%nat).
  { clear H U u0 tr uf st Hmax max. induction k as [|k IH]; intros it u st0 tr uf st m0 Hn U D HNk Hm0 H.
    - cbn [solve_loop] in H. destruct (update_step n condense apply load factorise it u) as [du ip] eqn:Eq.
      destruct (correction_solves n condense free loc (A u) apply load factorise u it du ip (Fa u U) Eq) as [Sy (e & ->)].
      rewrite fin_status, Hn in H. cbn [st_nan st_converged] in H.
      pose proof (Small u it du e m0 ltac:(lia) U D Eq Sy) as C. destruct (Rlt_dec (Rabs e) crit); [|contradiction].
      injection H as <- <- <-. split; [reflexivity|]. cbn [length]. lia.
    - remember (S k) as k1 eqn:K1. cbn [solve_loop] in H. destruct (update_step n condense apply load factorise it u) as [du ip] eqn:Eq.
      destruct (correction_solves n condense free loc (A u) apply load factorise u it du ip (Fa u U) Eq) as [Sy (e & ->)].
      rewrite fin_status, Hn in H. cbn [st_nan st_converged] in H. destruct (Rlt_dec (Rabs e) crit) as [C|C].
      + injection H as <- <- <-. split; [reflexivity|]. cbn [length]. lia.
      + destruct (Nat.eq_dec m0 N) as [->|Dn]; [exfalso; apply C, (Small u it du e N); auto|].
        destruct (solve_loop crit d (update_step n condense apply load factorise) (S it) k1 (update_solution d u du) (mk_status false false)) as [[tr1 uf1] stf1] eqn:E1.
        injection H as <- <- <-. subst k1.
        destruct (newton_step n free apply load A s r L M Reg R0 L0 M0 d u du (Rlt_le _ _ Ra) U Sy) as (U1 & D1 & _).
        destruct (IH (S it) (update_solution d u du) (mk_status false false) tr1 uf1 stf1 (S m0) eq_refl U1) as [Ic Il]; trivial; try lia.
        * eapply Rle_trans; [exact D1|]. cbn [pow]. rewrite Rmult_assoc. apply Rmult_le_compat_l; assumption.
        * split; [exact Ic|]. cbn [length]. lia. }
  destruct (General max 0%nat u0 reset_status tr uf st 0%nat eq_refl U ltac:(cbn; rewrite Rmult_1_l; apply U) ltac:(lia) ltac:(lia) H) as [G1 G2].
  split; [exact G1|]. lia.
Qed.
Print Assumptions c79_reported.

(** Without condensation and with a positive definite linearization a reported convergence bounds the distance to the
    solution: by the root of the criterion, and without damping by the criterion itself. *)
Theorem c79_accurate : forall n free loc apply load factorise A s r L M a max crit d u0 tr uf st,
  newton_setting n false free loc apply load factorise A s r L M -> M * L * r < 1 -> rate r L M d <= 1 -> 0 < a ->
  (forall u w, around n free s r u -> within n free w -> a * product n w w <= product n w (times n (A u) w)) ->
  around n free s r u0 -> nl_solve max crit d (update_step n false apply load factorise) u0 = (tr, uf, st) -> st_converged st = true ->
  distance n uf s <= rate r L M d * sqrt (crit / a) / (1 - M * L * r) /\
  (d = 1 -> distance n uf s <= M * L * (crit / a) / ((1 - M * L * r) * (1 - M * L * r))).
Proof.
  intros n free loc apply load factorise A s r L M a max crit d u0 tr uf st (R0 & L0 & M0 & Reg & Fa) Q Ra A0 Co U H C.
  destruct max as [|max]; [cbn in H; injection H as <- <- <-; discriminate C|]. unfold nl_solve in H.
  destruct (newton_loop n false free loc apply load factorise A s r L M Reg R0 L0 M0 Fa crit d Ra max 0 u0 reset_status tr uf st eq_refl U H)
    as (m & v & du & e & Hm & Hl & V & Dv & Qv & Ev & Sv & Hu & Hs & Hc).
  destruct (newton_step n free apply load A s r L M Reg R0 L0 M0 d v du Ra V Sv) as (V1 & D1 & _).
  destruct (damped_error n free (fun u i => apply u i - load i) A s r L M Reg L0 M0 d v du V Sv) as [_ D2].
  destruct (correction_length n free (fun u i => apply u i - load i) A s r L M Reg L0 M0 v du V Sv) as [_ Cl].
  assert (W : within n free du) by (intros i I Fr; specialize (Sv i I); rewrite Fr in Sv; exact Sv).
  rewrite Hs in C. cbn in C. destruct (Rlt_dec (Rabs e) crit) as [Sm|]; [|discriminate]. clear C.
  assert (Ep : product n du (times n (A v) du) = e).
  { unfold update_step in Ev. cbn [solve_update_step] in Ev. injection Ev as Edu Ee. rewrite Edu in Ee. rewrite <- Ee. apply sum_ext. intros i Hi.
    specialize (Sv i Hi). destruct (free i); [now rewrite Sv|rewrite Sv; ring]. }
  pose proof (Co v du V W) as Cv. rewrite Ep in Cv. pose proof (Rle_abs e) as Re.
  assert (Sq : length_of n du * length_of n du <= crit / a).
  { rewrite length_square. change (sum n (fun i => du i * du i)) with (product n du du). apply (Rmult_le_reg_l a); [exact A0|].
    replace (a * (crit / a)) with crit by (field; lra). lra. }
  pose proof (length_nonneg n du) as Ld. pose proof (length_nonneg n (fun i => v i - s i)) as D0. fold (distance n v s) in D0.
  assert (Lr : length_of n du <= sqrt (crit / a)).
  { rewrite <- (sqrt_square (length_of n du)) by exact Ld. apply sqrt_le_1_alt. exact Sq. }
  assert (Dq : distance n v s <= length_of n du / (1 - M * L * r)).
  { apply (Rmult_le_reg_l (1 - M * L * r)); [lra|]. replace ((1 - M * L * r) * (length_of n du / (1 - M * L * r))) with (length_of n du) by (field; lra). exact Cl. }
  subst uf. split.
  - eapply Rle_trans; [exact D1|]. unfold Rdiv. rewrite Rmult_assoc. apply Rmult_le_compat_l; [apply rate_nonneg; assumption|].
    eapply Rle_trans; [exact Dq|]. unfold Rdiv. apply Rmult_le_compat_r; [|exact Lr]. left. apply Rinv_0_lt_compat. lra.
  - intros ->. replace (1 - 1) with 0 in D2 by ring. rewrite Rabs_R0, Rabs_R1 in D2. eapply Rle_trans; [exact D2|].
    replace (0 * distance n v s + 1 * (M * L * distance n v s * distance n v s)) with (M * L * (distance n v s * distance n v s)) by ring.
    replace (M * L * (crit / a) / ((1 - M * L * r) * (1 - M * L * r))) with (M * L * ((crit / a) * / ((1 - M * L * r) * (1 - M * L * r)))) by (unfold Rdiv; ring).
    apply Rmult_le_compat_l; [apply Rmult_le_pos; assumption|].
    apply Rle_trans with ((length_of n du / (1 - M * L * r)) * (length_of n du / (1 - M * L * r))); [apply Rmult_le_compat; assumption|].
    replace ((length_of n du / (1 - M * L * r)) * (length_of n du / (1 - M * L * r))) with ((length_of n du * length_of n du) * / ((1 - M * L * r) * (1 - M * L * r))) by (field; lra).
    apply Rmult_le_compat_r; [|exact Sq]. left. apply Rinv_0_lt_compat, Rmult_lt_0_compat; lra.
Qed.
Print Assumptions c79_accurate.

(** There is no other solution in reach. *)
Theorem c79_unique : forall n free F A s r L M v, regular_solution n free F A s r L M -> 0 <= L -> 0 <= M -> M * L * r < 1 ->
  around n free s r v -> (forall i, (i < n)%nat -> free i = true -> F v i = 0) -> forall i, (i < n)%nat -> v i = s i.
Proof.
  intros n free F A s r L M v Reg L0 M0 Q V Sol.
  assert (Z : solves_system n free (A v) (F v) (fun _ => 0)).
  { intros i I. destruct (free i) eqn:E; [|reflexivity]. rewrite (Sol i I E). unfold times. apply sum_zero. intros. ring. }
  destruct (correction_error n free F A s r L M Reg L0 M0 v _ V Z) as [_ B].
  rewrite (length_ext n _ (fun i => v i - s i)) in B by (intros; ring). fold (distance n v s) in B.
  pose proof (length_nonneg n (fun i => v i - s i)) as D0. fold (distance n v s) in D0.
  assert (X : M * L * distance n v s * distance n v s <= M * L * r * distance n v s).
  { apply Rmult_le_compat_r; [exact D0|]. apply Rmult_le_compat_l; [apply Rmult_le_pos; assumption | apply V]. }
  assert (D : distance n v s = 0).
  { destruct (Rle_lt_or_eq_dec 0 _ D0) as [P|P]; [|symmetry; exact P]. exfalso.
    assert (M * L * r * distance n v s < 1 * distance n v s) by (apply Rmult_lt_compat_r; assumption). lra. }
  intros i I. pose proof (length_zero n _ D i I) as Y. cbn beta in Y. lra.
Qed.
Print Assumptions c79_unique.

(** ** Examples *)

Lemma length_componentwise n c x y : 0 <= c -> (forall i, (i < n)%nat -> Rabs (x i) <= c * Rabs (y i)) -> length_of n x <= c * length_of n y.
Proof.
  intros C H. rewrite <- (Rabs_pos_eq c C), <- length_scale. unfold length_of. apply sqrt_le_1; try apply squares_nonneg; try apply (squares_nonneg n (fun i => c * y i)).
  induction n as [|n IH]; cbn [sum]; [lra|]. specialize (IH ltac:(intros; apply H; lia)). specialize (H n ltac:(lia)).
  assert (Q : Rsqr (Rabs (x n)) <= Rsqr (c * Rabs (y n))) by (apply Rsqr_incr_1; [exact H | apply Rabs_pos | apply Rmult_le_pos; [exact C | apply Rabs_pos]]).
  rewrite Rsqr_mult, <- !Rsqr_abs in Q. unfold Rsqr in Q. lra.
Qed.

Lemma entry_le n x i : (i < n)%nat -> Rabs (x i) <= length_of n x.
Proof.
  intros I. rewrite <- (sqrt_Rsqr_abs (x i)). unfold length_of. apply sqrt_le_1; [apply Rle_0_sqr | apply squares_nonneg|].
  induction n as [|n IH]; [lia|]. cbn [sum]. pose proof (squares_nonneg n x). pose proof (Rle_0_sqr (x n)) as Q. unfold Rsqr in *.
  destruct (Nat.eq_dec i n) as [->|D]; [lra|]. specialize (IH ltac:(lia)). lra.
Qed.

(** One unknown with the equation x^3 - 5 x = 0. *)
Definition cubic (u : nat -> R) (i : nat) : R := u 0%nat * u 0%nat * u 0%nat - 5 * u 0%nat.
Definition cubic_matrix (u : nat -> R) (i j : nat) : R := 3 * (u 0%nat * u 0%nat) - 5.
Definition cubic_factors (u : nat -> R) : factors := mk_factors (fun i j => / (3 * (u 0%nat * u 0%nat) - 5)) (fun _ _ => 0) (fun _ _ => 0) (fun _ _ => 0).

Lemma cubic_full u : 3 * (u 0%nat * u 0%nat) - 5 <> 0 -> full_factors 1 (fun _ => true) (cubic_matrix u) (cubic_factors u).
Proof.
  intros N. split; intros i j I J; [discriminate|]. intros _ _. assert (i = 0%nat) as -> by lia. assert (j = 0%nat) as -> by lia.
  unfold compose, block, cubic_matrix, cubic_factors. cbn. split; field; exact N.
Qed.

Lemma cubic_near u : around 1 (fun _ => true) (fun _ => 0) (1 / 2) u -> Rabs (u 0%nat) <= 1 / 2.
Proof.
  intros [_ D]. unfold distance in D. pose proof (entry_le 1 (fun i => u i - 0) 0 ltac:(lia)) as E. cbv beta in E.
  rewrite Rminus_0_r in E. lra.
Qed.

Lemma cubic_setting : newton_setting 1 false (fun _ => true) (fun _ => false) cubic (fun _ => 0) cubic_factors cubic_matrix (fun _ => 0) (1 / 2) 3 (4 / 17).
Proof.
  split; [lra|]. split; [lra|]. split; [lra|].
  assert (Sq : forall u, around 1 (fun _ => true) (fun _ => 0) (1 / 2) u -> u 0%nat * u 0%nat <= 1 / 4).
  { intros u U. pose proof (cubic_near u U) as H. apply Rabs_le_between in H. nra. }
  split; [split|].
  - intros i I _. unfold cubic. ring.
  - intros u U i I _ t T. unfold cubic, line, times, cubic_matrix. cbn [sum]. auto_derive; [trivial|]. ring.
  - intros u v w U V _. apply length_componentwise; [apply Rmult_le_pos; [lra | apply length_nonneg]|].
    intros i I. assert (i = 0%nat) as -> by lia. unfold only, times, cubic_matrix. cbn [sum].
    pose proof (cubic_near u U) as Hu. pose proof (cubic_near v V) as Hv.
    pose proof (entry_le 1 (fun i => u i - v i) 0 ltac:(lia)) as D. fold (distance 1 u v) in D. cbv beta in D.
    replace (0 + (3 * (u 0%nat * u 0%nat) - 5) * w 0%nat - (0 + (3 * (v 0%nat * v 0%nat) - 5) * w 0%nat)) with
      (3 * ((u 0%nat + v 0%nat) * (u 0%nat - v 0%nat)) * w 0%nat) by ring.
    rewrite !Rabs_mult. apply Rmult_le_compat_r; [apply Rabs_pos|]. rewrite (Rabs_pos_eq 3) by lra. apply Rmult_le_compat_l; [lra|].
    rewrite <- (Rmult_1_l (distance 1 u v)). apply Rmult_le_compat; try apply Rabs_pos; [|exact D].
    eapply Rle_trans; [apply Rabs_triang|]. lra.
  - intros u w U _. apply length_componentwise; [lra|]. intros i I. assert (i = 0%nat) as -> by lia. unfold only, times, cubic_matrix. cbn [sum].
    rewrite Rplus_0_l, Rabs_mult. specialize (Sq u U). pose proof (Rabs_pos (w 0%nat)) as P. pose proof (Rle_0_sqr (u 0%nat)) as Q. unfold Rsqr in Q.
    rewrite (Rabs_left (3 * (u 0%nat * u 0%nat) - 5)) by lra. apply Rle_trans with (4 / 17 * (17 / 4 * Rabs (w 0%nat))); [lra|]. apply Rmult_le_compat_l; [lra|]. apply Rmult_le_compat_r; lra.
  - intros u U. specialize (Sq u U). cbn [factors_for]. apply cubic_full. lra.
Qed.

Lemma cubic_loop : forall crit, crit <= 8 -> forall k it u st, Rabs (u 0%nat) = 1 -> st_nan st = false -> st_converged st = false ->
  exists tr uf, solve_loop crit 1 (update_step 1 false cubic (fun _ => 0) cubic_factors) it k u st = (tr, uf, mk_status false false) /\ Rabs (uf 0%nat) = 1.
Proof.
  intros crit C. induction k as [|k IH]; intros it u st U N Cv.
  - exists [], u. cbn. destruct st as [a b]; cbn in *; subst. split; [reflexivity | exact U].
  - cbn [solve_loop]. unfold update_step at 1. cbn [solve_update_step]. rewrite fin_status.
    set (du := times 1 (inv (cubic_factors u)) (fun i => cubic u i - 0)).
    assert (S2 : u 0%nat * u 0%nat = 1). { pose proof (Rsqr_abs (u 0%nat)) as Q. unfold Rsqr in Q. rewrite Q, U. ring. }
    assert (D : du 0%nat = 2 * u 0%nat).
    { unfold du, times, cubic_factors, cubic. cbn [sum inv]. replace (u 0%nat * u 0%nat * u 0%nat) with (1 * u 0%nat) by (rewrite <- S2; ring). rewrite S2. field. }
    assert (P : product 1 du (fun i => cubic u i - 0) = -8).
    { unfold product. cbn [sum]. rewrite D. unfold cubic. replace (u 0%nat * u 0%nat * u 0%nat) with (1 * u 0%nat) by (rewrite <- S2; ring).
      replace (0 + 2 * u 0%nat * (1 * u 0%nat - 5 * u 0%nat - 0)) with (-8 * (u 0%nat * u 0%nat)) by ring. rewrite S2. ring. }
    rewrite P. replace (Rabs (-8)) with 8 by (rewrite Rabs_left; lra). destruct (Rlt_dec 8 crit); [lra|]. rewrite N. cbn [st_nan st_converged].
    destruct (IH (S it) (update_solution 1 u du) (mk_status false false)) as (tr & uf & E & Q); try reflexivity.
    { unfold update_solution. rewrite D. replace (u 0%nat - 1 * (2 * u 0%nat)) with (- u 0%nat) by ring. rewrite Rabs_Ropp. exact U. }
    rewrite E. eexists _, uf. split; [reflexivity | exact Q].
Qed.

(** Farther away no number of iterations need be enough: the equations have a regular solution, and from one starting
    point the iteration alternates between two states for ever. *)
Theorem c79_far_refuted : exists n free loc apply load factorise A s r L M u0,
  newton_setting n false free loc apply load factorise A s r L M /\ M * L * r < 1 /\ 0 < r /\
  (forall i, (i < n)%nat -> free i = false -> u0 i = s i) /\
  forall max crit, crit <= 8 -> exists tr uf, nl_solve max crit 1 (update_step n false apply load factorise) u0 = (tr, uf, mk_status false false) /\
    distance n uf s = distance n u0 s /\ r < distance n uf s.
Proof.
  exists 1%nat, (fun _ => true), (fun _ => false), cubic, (fun _ => 0), cubic_factors, cubic_matrix, (fun _ => 0), (1 / 2), 3, (4 / 17), (fun _ => 1).
  split; [apply cubic_setting|]. split; [lra|]. split; [lra|]. split; [discriminate|]. intros max crit C.
  destruct (cubic_loop crit C max 0%nat (fun _ => 1) reset_status ltac:(apply Rabs_R1) eq_refl eq_refl) as (tr & uf & E & Q).
  assert (One : forall u : nat -> R, Rabs (u 0%nat) = 1 -> distance 1 u (fun _ => 0) = 1).
  { intros u U. unfold distance, length_of. cbn [sum]. rewrite Rplus_0_l, Rminus_0_r. rewrite <- U. apply (sqrt_Rsqr_abs (u 0%nat)). }
  exists tr, uf. split; [exact E|]. rewrite (One uf Q), (One (fun _ => 1) Rabs_R1). split; [reflexivity | lra].
Qed.
Print Assumptions c79_far_refuted.

(** Two unknowns, the first eliminated in the element: x + x^2/4 = 0 and y = 0. *)
Definition bent (u : nat -> R) (i : nat) : R := match i with O => u 0%nat + u 0%nat * u 0%nat / 4 | _ => u i end.
Definition bent_matrix (u : nat -> R) (i j : nat) : R := match i, j with 0%nat, 0%nat => 1 + u 0%nat / 2 | 1%nat, 1%nat => 1 | _, _ => 0 end.
Definition bent_plain (u : nat -> R) : factors :=
  mk_factors (fun i j => match i, j with 0%nat, 0%nat => / (1 + u 0%nat / 2) | 1%nat, 1%nat => 1 | _, _ => 0 end) (fun _ _ => 0) (fun _ _ => 0) (fun _ _ => 0).
Definition bent_condensed (u : nat -> R) : factors :=
  mk_factors (fun i j => match i, j with 1%nat, 1%nat => 1 | _, _ => 0 end) (fun _ _ => 0) (fun _ _ => 0)
    (fun i j => match i, j with 0%nat, 0%nat => / (1 + u 0%nat / 2) | _, _ => 0 end).
Definition bent_factors (condense : bool) := if condense then bent_condensed else bent_plain.

(** The hypotheses of all theorems are met, with and without condensation. *)
Example c79_example : forall condense,
  newton_setting 2 condense (fun _ => true) (fun i => i =? 0)%nat bent (fun _ => 0) (bent_factors condense) bent_matrix (fun _ => 0) (1 / 2) (1 / 2) (4 / 3) /\
  4 / 3 * (1 / 2) * (1 / 2) < 1 /\ rate (1 / 2) (1 / 2) (4 / 3) 1 < 1 /\ rate (1 / 2) (1 / 2) (4 / 3) (1 / 2) < 1 /\
  (forall u w, around 2 (fun _ => true) (fun _ => 0) (1 / 2) u -> length_of 2 (only (fun _ => true) (times 2 (bent_matrix u) w)) <= 5 / 4 * length_of 2 w) /\
  (forall u w, length_of 2 (only (fun _ => true) (times 2 (extension_trans (bent_factors condense u)) w)) <= 0 * length_of 2 w) /\
  (forall u w, around 2 (fun _ => true) (fun _ => 0) (1 / 2) u -> 3 / 4 * product 2 w w <= product 2 w (times 2 (bent_matrix u) w)) /\
  around 2 (fun _ => true) (fun _ => 0) (1 / 2) (fun i => if (i =? 0)%nat then 1 / 4 else 0) /\
  bent (fun i => if (i =? 0)%nat then 1 / 4 else 0) 0 = 17 / 64.
Proof.
  intros condense.
  assert (Near : forall u, around 2 (fun _ => true) (fun _ => 0) (1 / 2) u -> - (1 / 2) <= u 0%nat <= 1 / 2).
  { intros u [_ D]. unfold distance in D. pose proof (entry_le 2 (fun i => u i - 0) 0 ltac:(lia)) as E. cbv beta in E. rewrite Rminus_0_r in E.
    apply Rabs_le_between. lra. }
  split; [split; [lra|]; split; [lra|]; split; [lra|]; split; [split|]|].
  - intros i I _. two i I; unfold bent; field.
  - intros u U i I _ t T. two i I; unfold bent, line, times, bent_matrix; cbn [sum]; auto_derive; trivial; field.
  - intros u v w U V _. pose proof (length_nonneg 2 (fun i => u i - v i)) as D0. fold (distance 2 u v) in D0.
    apply length_componentwise; [apply Rmult_le_pos; [lra | exact D0]|].
    pose proof (entry_le 2 (fun i => u i - v i) 0 ltac:(lia)) as D. fold (distance 2 u v) in D. cbv beta in D.
    intros i I. two i I; unfold only, times, bent_matrix; cbn [sum].
    + match goal with |- Rabs ?x <= _ => replace x with (1 / 2 * (u 0%nat - v 0%nat) * w 0%nat) by field end.
      rewrite !Rabs_mult, (Rabs_pos_eq (1 / 2)) by lra. apply Rmult_le_compat_r; [apply Rabs_pos|]. lra.
    + match goal with |- Rabs ?x <= _ => replace x with 0 by field end. rewrite Rabs_R0. repeat apply Rmult_le_pos; try lra. apply Rabs_pos.
  - intros u w U _. apply Near in U. apply length_componentwise; [lra|].
    intros i I. two i I; unfold only, times, bent_matrix; cbn [sum].
    + match goal with |- _ <= _ * Rabs ?x => replace x with ((1 + u 0%nat / 2) * w 0%nat) by field end. rewrite Rabs_mult, (Rabs_pos_eq (1 + _)) by lra.
      pose proof (Rabs_pos (w 0%nat)). nra.
    + match goal with |- _ <= _ * Rabs ?x => replace x with (w 1%nat) by field end. pose proof (Rabs_pos (w 1%nat)). lra.
  - intros u U. apply Near in U. destruct condense; cbn [factors_for bent_factors].
    + split; [|split; [|split; [|split]]].
      * reflexivity.
      * split; intros i j I J; two i I; two j J; cbn; try discriminate; intros; repeat split; try ring; field; lra.
      * intros i j I J. two i I; two j J; cbn; ring.
      * intros i j I J. two i I; two j J; cbn; ring.
      * split; intros i j I J; two i I; two j J; cbn; try discriminate; intros; repeat split; ring.
    + split; intros i j I J; two i I; two j J; cbn; try discriminate; intros; repeat split; try ring; field; lra.
  - split; [lra|]. split; [unfold rate; replace (1 - 1) with 0 by ring; rewrite Rabs_R0, Rabs_R1; lra|].
    split; [unfold rate; rewrite !Rabs_pos_eq by lra; lra|]. split; [|split; [|split; [|split]]].
    + intros u w U. apply Near in U. apply length_componentwise; [lra|]. intros i I. two i I; unfold only, times, bent_matrix; cbn [sum].
      * match goal with |- Rabs ?x <= _ => replace x with ((1 + u 0%nat / 2) * w 0%nat) by field end. rewrite Rabs_mult, (Rabs_pos_eq (1 + _)) by lra.
        pose proof (Rabs_pos (w 0%nat)). nra.
      * match goal with |- Rabs ?x <= _ => replace x with (w 1%nat) by field end. pose proof (Rabs_pos (w 1%nat)). lra.
    + intros u w. apply length_componentwise; [lra|]. intros i I. two i I; unfold only, times, bent_factors; destruct condense; cbn;
        match goal with |- Rabs ?x <= _ => replace x with 0 by ring end; rewrite Rabs_R0; lra.
    + intros u w U. apply Near in U. unfold product, times, bent_matrix. cbn [sum].
      pose proof (Rle_0_sqr (w 0%nat)) as A. pose proof (Rle_0_sqr (w 1%nat)) as B. unfold Rsqr in A, B. nra.
    + split; [discriminate|]. unfold distance, length_of. cbn [sum Nat.eqb]. replace (0 + (1 / 4 - 0) * (1 / 4 - 0) + (0 - 0) * (0 - 0)) with (1 / 4 * (1 / 4)) by ring.
      rewrite sqrt_square by lra. lra.
    + unfold bent. cbn [Nat.eqb]. field.
Qed.
