(** C60: the discrete solution of a time step conserves mass, momentum and energy, element by element, facet by facet and
    globally. *)
From Coq Require Import Reals String List Arith Bool Lia Lra Permutation.
From Verif Require Import Base M_Bla M_Flow M_Formulation M_Weak S_Flow S_Chars S_Formulation S_Weak L_Flow L_Formulation L_Weak P_Eos P_Jacobian P_Riemann.
Import ListNotations.
Open Scope R_scope.
Open Scope list_scope.

(** ** The forms with constant test functions *)

Section Constant.
Variables (s : settings) (m : mesh) (u : unknowns) (k : nat) (A B : nat -> bool).
Hypothesis K : (k < s_dim s + 2)%nat.
Let t := constant_test (s_dim s) m k A B.
Let inA x := A (element m x).
Let inB y := negb (outer_facet m (facet m y)) && B (facet m y).

Lemma gradient_zero (F : list R) x : inner F (entries (tdV t x)) = 0.
Proof. unfold t, constant_test. cbn [tdV]. rewrite tabulate_zero. apply inner_zero. Qed.

Lemma volume_zero (q : rule) (f : nat -> result matrix) (c : R) a :
  integral q (fun x => let* F := f x in Ok (c * inner (entries F) (entries (tdV t x)))) = Ok a -> a = 0.
Proof.
  intros H. apply integral_ok in H as [Hc ->]. apply weighted_zero. intros w x I. destruct (Hc w x I) as [b Hb].
  destruct (f x); cbn [bind got] in *; [|discriminate]. rewrite gradient_zero. ring.
Qed.

Lemma masked_integral q (v : nat -> result (list R)) c a :
  integral q (fun y => let* r := v y in Ok (c * (mask m y * inner r (tVhat t y)))) = Ok a ->
  computed q v /\ a = c * weighted (at_points inB q) (component v k).
Proof.
  intros H. apply integral_ok in H as [Hc ->]. split.
  - intros w x I. destruct (Hc w x I) as [b Hb]. destruct (v x) as [l|]; [now exists l|discriminate].
  - rewrite <- weighted_select, <- weighted_scale. apply weighted_ext. intros w x I. destruct (Hc w x I) as [b Hb]. unfold component, t, constant_test, mask, inB in *. cbn [tVhat] in *.
    destruct (v x) as [l|]; cbn [bind got] in *; [|discriminate]. rewrite tested by exact K.
    destruct (outer_facet m (facet m x)), (B (facet m x)); cbn [negb andb]; ring.
Qed.

Lemma convection_constant vol bnd a : convection_form s m vol bnd u t = Ok a ->
  computed bnd (convection_Fn s m u) /\
  a = weighted (at_points inA bnd) (component (convection_Fn s m u) k) - weighted (at_points inB bnd) (component (convection_Fn s m u) k).
Proof.
  intros H. unfold convection_form in H. apply bind_ok in H as (a1 & H1 & H). apply bind_ok in H as (a2 & H2 & H). apply bind_ok in H as (a3 & H3 & H). injection H as <-.
  assert (E1 : a1 = 0).
  { apply (volume_zero vol (convection_F s u) (-1)). rewrite <- H1. apply integral_ext. intros x. destruct (convection_F s u x); cbn [bind]; [f_equal; ring|reflexivity]. }
  unfold t, constant_test in H2. cbn [tV] in H2. apply (tested_integral _ (fun x => A (element m x))) in H2 as [C2 E2]; [|exact K].
  assert (E3 : a3 = -1 * weighted (at_points inB bnd) (component (convection_Fn s m u) k)).
  { apply (masked_integral bnd (convection_Fn s m u) (-1)). rewrite <- H3. apply integral_ext. intros x. destruct (convection_Fn s m u x); cbn [bind]; [f_equal; ring|reflexivity]. }
  split; [exact C2|]. rewrite E1, E2, E3. unfold inA. ring.
Qed.

Lemma diffusion_constant vol bnd a : diffusion_form s m vol bnd u t = Ok a ->
  computed bnd (diffusion_Gn s m u) /\
  a = - (weighted (at_points inA bnd) (component (diffusion_Gn s m u) k) - weighted (at_points inB bnd) (component (diffusion_Gn s m u) k)).
Proof.
  intros H. unfold diffusion_form in H. apply bind_ok in H as (a1 & H1 & H). apply bind_ok in H as (a2 & H2 & H). apply bind_ok in H as (a3 & H3 & H). injection H as <-.
  assert (E1 : a1 = 0).
  { apply (volume_zero vol (diffusion_G s u) 1). rewrite <- H1. apply integral_ext. intros x. destruct (diffusion_G s u x); cbn [bind]; [f_equal; ring|reflexivity]. }
  unfold t, constant_test in H2. cbn [tV] in H2. apply (tested_integral _ (fun x => A (element m x))) in H2 as [C2 E2]; [|exact K].
  assert (E3 : a3 = 1 * weighted (at_points inB bnd) (component (diffusion_Gn s m u) k)).
  { apply (masked_integral bnd (diffusion_Gn s m u) 1). rewrite <- H3. apply integral_ext. intros x. destruct (diffusion_Gn s m u x); cbn [bind]; [f_equal; ring|reflexivity]. }
  split; [exact C2|]. rewrite E1, E2, E3. unfold inA. ring.
Qed.

Lemma boundary_constant bs a : on_domain_boundary m bs -> (forall f, outer_facet m f = true -> B f = false) -> boundary_form bs t = Ok a -> a = 0.
Proof.
  intros O HB. revert a. induction bs as [|b bs IH]; intros a H; cbn [boundary_form] in H; [now injection H|].
  apply bind_ok in H as (a1 & H1 & H). apply bind_ok in H as (a2 & H2 & H). injection H as <-.
  unfold t, constant_test in H1. cbn [tVhat] in H1. apply (tested_integral _ (fun x => B (facet m x))) in H1 as [C1 E1]; [|exact K].
  rewrite at_points_none in E1 by (intros w y I; apply HB, (O b w y); [now left|exact I]).
  rewrite E1, (IH (fun b' w y I J => O b' w y (or_intror I) J) a2 H2). cbn [weighted]. ring.
Qed.

Lemma domain_constant ls a : domain_form s ls u t = Ok a -> a = damped s ls u inA k.
Proof.
  revert a. induction ls as [|l ls IH]; intros a H; cbn [domain_form damped] in *; [now injection H|].
  apply bind_ok in H as (a1 & H1 & H). apply bind_ok in H as (a2 & H2 & H). injection H as <-.
  unfold t, constant_test in H1. cbn [tV] in H1. apply (tested_integral _ (fun x => A (element m x))) in H1 as [C1 E1]; [|exact K].
  rewrite E1, (IH a2 H2). reflexivity.
Qed.

Lemma time_constant sc q a : (forall x, length (uU u x) = s_dim s + 2)%nat -> levels_have (s_dim s + 2) sc ->
  time_form sc q u t = Ok a -> a = weighted (at_points inA q) (rate sc u k).
Proof.
  intros L Ls H. unfold time_form in H. apply integral_ok in H as [_ ->]. rewrite <- weighted_select. apply weighted_ext. intros w x _. cbn [got].
  unfold t, constant_test. cbn [tV]. rewrite tested by exact K. unfold inA. destruct (A (element m x)); [|reflexivity].
  destruct sc as [dt n|dt n nm1]; cbn [time_derivative rate levels_have] in *.
  - rewrite vdiv_nth, vsub_nth by (now rewrite L, Ls). reflexivity.
  - destruct (Ls x) as [L1 L2]. rewrite vdiv_nth, vadd_nth, vsub_nth, !vscale_nth; [reflexivity|rewrite !vscale_length; now rewrite L|rewrite vsub_length, !vscale_length, L, L1, L2; lia].
Qed.
End Constant.

(** ** Balances *)

Section Balance.
Variables (s : settings) (m : mesh) (r : rules) (bs : list bterm) (ls : list sponge) (sc : scheme) (W : test -> Prop) (u : unknowns).
Hypothesis HW : has_constants (s_dim s) m W.
Hypothesis Hu : forall x, length (uU u x) = (s_dim s + 2)%nat.
Hypothesis Hl : levels_have (s_dim s + 2) sc.
Hypothesis Hb : on_domain_boundary m bs.
Hypothesis Hs : solves s m r bs ls sc W u.

Lemma balance k (A B : nat -> bool) : (k < s_dim s + 2)%nat -> (forall f, outer_facet m f = true -> B f = false) ->
  weighted (at_points (fun x => A (element m x)) (r_time r)) (rate sc u k)
  + outflow s m r u (fun x => A (element m x)) k + damped s ls u (fun x => A (element m x)) k
  = outflow s m r u (fun y => B (facet m y)) k.
Proof.
  intros K HB. pose proof (Hs _ (HW k A B K)) as H. unfold weak_form in H.
  apply bind_ok in H as (c & Hc & H). apply bind_ok in H as (d & Hd & H). apply bind_ok in H as (b & Hbb & H).
  apply bind_ok in H as (l & Hll & H). apply bind_ok in H as (h & Hh & H). injection H as H.
  apply convection_constant in Hc as [_ Ec]; [|exact K]. apply boundary_constant in Hbb; [|exact K|exact Hb|exact HB].
  apply domain_constant in Hll; [|exact K]. apply time_constant in Hh; [|exact K|exact Hu|exact Hl].
  assert (EB : forall q, at_points (fun y => negb (outer_facet m (facet m y)) && B (facet m y)) q = at_points (fun y => B (facet m y)) q).
  { intros q. apply at_points_ext. intros y. destruct (outer_facet m (facet m y)) eqn:E; [|reflexivity]. cbn [negb andb]. symmetry. now apply HB. }
  rewrite EB in Ec. unfold outflow.
  destruct (s_law s) eqn:El.
  - injection Hd as <-. subst. lra.
  - apply diffusion_constant in Hd as [_ Ed]; [|exact K]. rewrite EB in Ed. subst. lra.
  - apply diffusion_constant in Hd as [_ Ed]; [|exact K]. rewrite EB in Ed. subst. lra.
Qed.
End Balance.

(** Every numerical flux that the form needs was computed. *)
Theorem c60_computed : forall s m r bs ls sc W u, has_constants (s_dim s) m W -> solves s m r bs ls sc W u ->
  computed (r_cbnd r) (convection_Fn s m u) /\ (s_law s <> Inviscid -> computed (r_dbnd r) (diffusion_Gn s m u)).
Proof.
  intros s m r bs ls sc W u HW Hs. assert (K : (0 < s_dim s + 2)%nat) by lia.
  pose proof (Hs _ (HW 0%nat (fun _ => true) (fun _ => true) K)) as H. unfold weak_form in H.
  apply bind_ok in H as (c & Hc & H). apply bind_ok in H as (d & Hd & H).
  apply convection_constant in Hc as [Cc _]; [|exact K]. split; [exact Cc|]. intros V.
  destruct (s_law s); [congruence| |]; apply diffusion_constant in Hd as [Cd _]; trivial.
Qed.
Print Assumptions c60_computed.

(** In any set of elements, what the content changes by, what flows out and what sponge layers take away is balanced. *)
Theorem c60_elements : forall s m r bs ls sc W u k A,
  has_constants (s_dim s) m W -> (forall x, length (uU u x) = (s_dim s + 2)%nat) -> levels_have (s_dim s + 2) sc ->
  on_domain_boundary m bs -> solves s m r bs ls sc W u -> (k < s_dim s + 2)%nat ->
  let p x := A (element m x) in
  weighted (at_points p (r_time r)) (rate sc u k) = - outflow s m r u p k - damped s ls u p k.
Proof.
  intros s m r bs ls sc W u k A HW Hu Hl Hb Hs K p. pose proof (balance s m r bs ls sc W u HW Hu Hl Hb Hs k A (fun _ => false) K ltac:(trivial)) as H.
  fold p in H. unfold outflow at 2 in H. rewrite !(at_points_none (fun _ => false)) in H by trivial. cbn [weighted] in H. destruct (s_law s); lra.
Qed.
Print Assumptions c60_elements.

(** On any set of interior facets, what flows out of the elements on one side flows into those on the other. *)
Theorem c60_facets : forall s m r bs ls sc W u k B,
  has_constants (s_dim s) m W -> (forall x, length (uU u x) = (s_dim s + 2)%nat) -> levels_have (s_dim s + 2) sc ->
  on_domain_boundary m bs -> solves s m r bs ls sc W u -> (k < s_dim s + 2)%nat ->
  (forall f, outer_facet m f = true -> B f = false) ->
  outflow s m r u (fun y => B (facet m y)) k = 0.
Proof.
  intros s m r bs ls sc W u k B HW Hu Hl Hb Hs K HB. pose proof (balance s m r bs ls sc W u HW Hu Hl Hb Hs k (fun _ => false) B K HB) as H. cbn beta in H.
  rewrite (at_points_none (fun _ => false)) in H by trivial.
  assert (D : damped s ls u (fun _ => false) k = 0).
  { clear. induction ls as [|l ls IH]; [reflexivity|]. cbn [damped]. rewrite IH, at_points_none by trivial. cbn [weighted]. ring. }
  assert (O : outflow s m r u (fun _ => false) k = 0).
  { unfold outflow. rewrite !(at_points_none (fun _ => false)) by trivial. cbn [weighted]. destruct (s_law s); ring. }
  rewrite D, O in H. cbn [weighted] in H. lra.
Qed.
Print Assumptions c60_facets.

(** Of the whole domain, only what flows out through the domain boundaries and what sponge layers take is lost. *)
Theorem c60_domain : forall s m r bs ls sc W u k,
  has_constants (s_dim s) m W -> (forall x, length (uU u x) = (s_dim s + 2)%nat) -> levels_have (s_dim s + 2) sc ->
  on_domain_boundary m bs -> solves s m r bs ls sc W u -> (k < s_dim s + 2)%nat ->
  weighted (r_time r) (rate sc u k) = - outflow s m r u (fun y => outer_facet m (facet m y)) k - damped s ls u (fun _ => true) k.
Proof.
  intros s m r bs ls sc W u k HW Hu Hl Hb Hs K.
  pose proof (c60_elements s m r bs ls sc W u k (fun _ => true) HW Hu Hl Hb Hs K) as E. cbv zeta beta in E.
  pose proof (c60_facets s m r bs ls sc W u k (fun f => negb (outer_facet m f)) HW Hu Hl Hb Hs K (fun f (E : outer_facet m f = true) => f_equal negb E)) as F.
  rewrite (at_points_all (fun _ => true)) in E by trivial. rewrite E. f_equal. f_equal.
  unfold outflow in *. rewrite !(at_points_all (fun _ => true)) by trivial.
  rewrite (weighted_split (r_cbnd r) (fun y => outer_facet m (facet m y))), (weighted_split (r_dbnd r) (fun y => outer_facet m (facet m y))).
  destruct (s_law s); lra.
Qed.
Print Assumptions c60_domain.

(** ** Many steps *)

(** The sum of the first [n] numbers [f 0 .. f (n-1)] is [total n f]. *)

(** Implicit Euler, any time steps: the content after [N] steps is the initial one minus what was lost in the steps. *)
Theorem c60_euler : forall s m r bs ls W (U : nat -> unknowns) (dt : nat -> R) k N,
  has_constants (s_dim s) m W -> (forall n x, length (uU (U n) x) = (s_dim s + 2)%nat) -> (forall n, dt n <> 0) ->
  on_domain_boundary m bs -> (forall n, solves s m r bs ls (IE (dt n) (uU (U n))) W (U (S n))) -> (k < s_dim s + 2)%nat ->
  content (r_time r) (uU (U N)) k = content (r_time r) (uU (U 0%nat)) k
    - total N (fun n => dt n * (outflow s m r (U (S n)) (fun y => outer_facet m (facet m y)) k + damped s ls (U (S n)) (fun _ => true) k)).
Proof.
  intros s m r bs ls W U dt k N HW Hu Hdt Hb Hs K. induction N as [|N IH]; cbn [total]; [ring|].
  pose proof (c60_domain s m r bs ls (IE (dt N) (uU (U N))) W (U (S N)) k HW (Hu _) (Hu _) Hb (Hs N) K) as D.
  assert (E : weighted (r_time r) (rate (IE (dt N) (uU (U N))) (U (S N)) k) = / dt N * (content (r_time r) (uU (U (S N))) k + -1 * content (r_time r) (uU (U N)) k)).
  { unfold content. rewrite <- weighted_scale, <- weighted_plus, <- weighted_scale. apply weighted_ext. intros w x _. cbn [rate]. field. apply Hdt. }
  assert (D' : content (r_time r) (uU (U (S N))) k - content (r_time r) (uU (U N)) k = dt N * weighted (r_time r) (rate (IE (dt N) (uU (U N))) (U (S N)) k)).
  { rewrite E. field. apply Hdt. }
  rewrite D in D'. lra.
Qed.
Print Assumptions c60_euler.

(** The older level of step [n]: both levels hold the initial values at the start (see C13). *)
Definition before (U : nat -> unknowns) (n : nat) : nat -> list R := uU (U (n - 1)%nat).

(** BDF2 with the start of the code: the increments of the content follow the recursion that the losses of the steps drive. *)
Theorem c60_bdf2 : forall s m r bs ls W (U : nat -> unknowns) dt k n,
  has_constants (s_dim s) m W -> (forall n x, length (uU (U n) x) = (s_dim s + 2)%nat) -> dt <> 0 ->
  on_domain_boundary m bs -> (forall n, solves s m r bs ls (BDF dt (uU (U n)) (before U n)) W (U (S n))) -> (k < s_dim s + 2)%nat ->
  let c n := content (r_time r) (uU (U n)) k in
  3 * (c (S n) - c n) = c n - c (n - 1)%nat
    - 2 * dt * (outflow s m r (U (S n)) (fun y => outer_facet m (facet m y)) k + damped s ls (U (S n)) (fun _ => true) k).
Proof.
  intros s m r bs ls W U dt k n HW Hu Hdt Hb Hs K c.
  pose proof (c60_domain s m r bs ls (BDF dt (uU (U n)) (before U n)) W (U (S n)) k HW (Hu _) (fun x => conj (Hu _ x) (Hu _ x)) Hb (Hs n) K) as D.
  assert (E : weighted (r_time r) (rate (BDF dt (uU (U n)) (before U n)) (U (S n)) k) = / (2 * dt) * (3 * c (S n) + -4 * c n + c (n - 1)%nat)).
  { unfold c, content. rewrite <- (weighted_scale _ 3), <- (weighted_scale _ (-4)), <- !weighted_plus, <- weighted_scale. apply weighted_ext. intros w x _. cbn [rate]. unfold before. field. exact Hdt. }
  rewrite E in D. assert (D' : 3 * c (S n) + -4 * c n + c (n - 1)%nat = 2 * dt * (/ (2 * dt) * (3 * c (S n) + -4 * c n + c (n - 1)%nat))) by (field; exact Hdt).
  rewrite D in D'. lra.
Qed.
Print Assumptions c60_bdf2.

(** Without domain boundaries (periodic domains) and sponge layers the contents never change, with both schemes. *)
Theorem c60_periodic : forall s m r W (U : nat -> unknowns) dt k N,
  has_constants (s_dim s) m W -> (forall n x, length (uU (U n) x) = (s_dim s + 2)%nat) -> dt <> 0 -> (k < s_dim s + 2)%nat ->
  (forall w y, In (w, y) (r_cbnd r) \/ In (w, y) (r_dbnd r) -> outer_facet m (facet m y) = false) ->
  (forall n, solves s m r [] [] (IE dt (uU (U n))) W (U (S n))) \/ (forall n, solves s m r [] [] (BDF dt (uU (U n)) (before U n)) W (U (S n))) ->
  content (r_time r) (uU (U N)) k = content (r_time r) (uU (U 0%nat)) k.
Proof.
  intros s m r W U dt k N HW Hu Hdt K Hp Hs.
  assert (Hb : on_domain_boundary m []) by (intros b w y []).
  assert (O : forall n, outflow s m r (U n) (fun y => outer_facet m (facet m y)) k = 0).
  { intros n. unfold outflow. rewrite !at_points_none by (intros w y I; apply (Hp w); tauto). cbn [weighted]. destruct (s_law s); ring. }
  destruct Hs as [Hs|Hs].
  - rewrite (c60_euler s m r [] [] W U (fun _ => dt) k N HW Hu (fun _ => Hdt) Hb Hs K).
    rewrite (total_ext _ (fun _ => 0)), total_zero by (intros n _; rewrite O; cbn [damped]; ring). ring.
  - assert (Hn : content (r_time r) (uU (U N)) k = content (r_time r) (uU (U 0%nat)) k /\ content (r_time r) (uU (U (N - 1)%nat)) k = content (r_time r) (uU (U 0%nat)) k).
    { induction N as [|N [IH1 IH2]]; [split; reflexivity|].
      pose proof (c60_bdf2 s m r [] [] W U dt k N HW Hu Hdt Hb Hs K) as D. cbv zeta in D. rewrite O in D. cbn [damped] in D.
      replace (S N - 1)%nat with N by lia. split; lra. }
    exact (proj1 Hn).
Qed.
Print Assumptions c60_periodic.
