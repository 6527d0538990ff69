(** Theorems about plane flows in three dimensions (C88). *)
From Coq Require Import Reals String List Arith Bool Lia Lra FunctionalExtensionality.
From Verif Require Import Base M_Bla M_Flow M_Formulation M_Weak S_Weak L_Weak P_Eos P_Trace P_Positive S_Extrude.
Import ListNotations.
Open Scope R_scope.
Open Scope list_scope.

Lemma four (l : list R) : length l = 4%nat -> exists a b c d, l = [a; b; c; d].
Proof. destruct l as [|a [|b [|c [|d [|? ?]]]]]; intros H; try discriminate. exists a, b, c, d. reflexivity. Qed.
Lemma two (l : list R) : length l = 2%nat -> exists a b, l = [a; b].
Proof. destruct l as [|a [|b [|? ?]]]; intros H; try discriminate. exists a, b. reflexivity. Qed.

Ltac flat := repeat (apply f_equal2; [unfold Rdiv; ring|]); reflexivity.

(** ** Fluxes *)

Theorem c88_flux : forall s U Uhat n, s_dim s = 2%nat -> s_riemann s = LaxFriedrich \/ s_riemann s = HLL ->
  length U = 4%nat -> length Uhat = 4%nat -> length n = 2%nat ->
  exists f, length f = 4%nat /\ get_convective_numerical_flux s U Uhat n = Ok f /\
    get_convective_numerical_flux (deep s) (lift U) (lift Uhat) (n ++ [0]) = Ok (lift f).
Proof.
  intros s U Uhat n D Rs Lu Lh Ln. destruct (four U Lu) as (a & b & c & d & ->), (four Uhat Lh) as (a' & b' & c' & d' & ->), (two n Ln) as (n1 & n2 & ->).
  unfold get_convective_numerical_flux, get_conservative_fields, get_convective_stabilisation_matrix. cbn [deep s_riemann s_dim]. rewrite D.
  assert (Z : 0 / a' = 0) by (unfold Rdiv; ring).
  assert (E1 : b' / a' * n1 + (c' / a' * n2 + (0 / a' * 0 + 0)) = b' / a' * n1 + (c' / a' * n2 + 0)) by (unfold Rdiv; ring).
  assert (E2 : b' / a' * (b' / a') + (c' / a' * (c' / a') + (0 / a' * (0 / a') + 0)) = b' / a' * (b' / a') + (c' / a' * (c' / a') + 0)) by (unfold Rdiv; ring).
  destruct Rs as [R|R]; rewrite R; cbn; unfold velocity; cbn; unfold speed_of_sound; cbn; eexists; (split; [|split; [reflexivity|]]); try reflexivity; unfold lift; cbn; rewrite E1, E2.
  - generalize (cf_abs (b' / a' * n1 + (c' / a' * n2 + 0))). match goal with |- context [sqrt ?x] => generalize (sqrt x) end. intros k1 k2. f_equal. flat.
  - match goal with |- context [cf_max ?x ?y] => generalize (cf_max x y) end. intros k1. f_equal. flat.
Qed.
Print Assumptions c88_flux.

Definition push_up (s : settings) (U : list R) : R :=
  (s_gamma s - 1) * (nth 3 U 0 - 1 / 2 * nth 0 U 0 * (nth 1 U 0 / nth 0 U 0 * (nth 1 U 0 / nth 0 U 0) + nth 2 U 0 / nth 0 U 0 * (nth 2 U 0 / nth 0 U 0))).

Lemma lid_flux s U g : s_riemann s = LaxFriedrich \/ s_riemann s = HLL -> length U = 4%nat ->
  get_convective_numerical_flux (deep s) (lift U) (lift U) [0; 0; g] = Ok [0; 0; 0; push_up s U * g; 0].
Proof.
  intros Rs Lu. destruct (four U Lu) as (a & b & c & d & ->).
  unfold get_convective_numerical_flux, get_conservative_fields, get_convective_stabilisation_matrix. cbn [deep s_riemann s_dim].
  destruct Rs as [R|R]; rewrite R; cbn; unfold velocity; cbn; unfold speed_of_sound, push_up; cbn.
  - match goal with |- context [cf_abs ?x] => generalize (cf_abs x) end. match goal with |- context [sqrt ?x] => generalize (sqrt x) end. intros k1 k2. f_equal. flat.
  - match goal with |- context [cf_max ?x ?y] => generalize (cf_max x y) end. intros k1. f_equal. flat.
Qed.

Lemma fifteen (l : list R) : length l = 15%nat -> exists e0 e1 e2 e3 e4 e5 e6 e7 e8 e9 e10 e11 e12 e13 e14, l = [e0; e1; e2; e3; e4; e5; e6; e7; e8; e9; e10; e11; e12; e13; e14].
Proof.
  destruct l as [|e0 [|e1 [|e2 [|e3 [|e4 [|e5 [|e6 [|e7 [|e8 [|e9 [|e10 [|e11 [|e12 [|e13 [|e14 [|? ?]]]]]]]]]]]]]]]]; intros H; try discriminate.
  exists e0, e1, e2, e3, e4, e5, e6, e7, e8, e9, e10, e11, e12, e13, e14. reflexivity.
Qed.

Lemma volume_flux s U : s_dim s = 2%nat -> length U = 4%nat -> exists F F3, length (entries F) = 8%nat /\
  (let* V := get_conservative_fields s U in get_convective_flux s false V) = Ok F /\
  (let* V := get_conservative_fields (deep s) (lift U) in get_convective_flux (deep s) false V) = Ok F3 /\
  forall M, rows M = 5%nat -> cols M = 3%nat -> length (entries M) = 15%nat ->
    inner (entries F3) (entries M) = inner (entries F) (flat_map (fun k => map (fun l => entry M k l) [0; 1]%nat) [0; 1; 2; 4]%nat) + push_up s U * entry M 3 2.
Proof.
  intros D Lu. destruct (four U Lu) as (a & b & c & d & ->). unfold get_conservative_fields. cbn [deep s_dim]. rewrite D. cbn. unfold velocity. cbn.
  eexists. eexists. split; [|split; [reflexivity|split; [reflexivity|]]]; [reflexivity|]. intros M Rm Cm Lm. unfold entry. rewrite Cm.
  destruct (fifteen (entries M) Lm) as (e0 & e1 & e2 & e3 & e4 & e5 & e6 & e7 & e8 & e9 & e10 & e11 & e12 & e13 & e14 & ->). unfold push_up. cbn. unfold Rdiv. ring.
Qed.

(** ** Boundary conditions *)

Theorem c88_wall : forall s U Uhat n, s_dim s = 2%nat -> length U = 4%nat -> length Uhat = 4%nat -> length n = 2%nat ->
  exists r, length r = 4%nat /\ inviscid_wall_residual s U Uhat n = Ok r /\ inviscid_wall_residual (deep s) (lift U) (lift Uhat) (n ++ [0]) = Ok (lift r).
Proof.
  intros s U Uhat n D Lu Lh Ln. destruct (four U Lu) as (a & b & c & d & ->), (four Uhat Lh) as (a' & b' & c' & d' & ->), (two n Ln) as (n1 & n2 & ->).
  unfold inviscid_wall_residual, inviscid_wall_state, get_conservative_fields. cbn [deep s_dim]. rewrite D. cbn.
  eexists. split; [|split; [reflexivity|]]; [reflexivity|]. unfold lift. cbn. f_equal. flat.
Qed.
Print Assumptions c88_wall.

Theorem c88_outflow : forall s p U Uhat, s_dim s = 2%nat -> length U = 4%nat -> length Uhat = 4%nat ->
  exists r, length r = 4%nat /\ outflow_residual s p U Uhat = Ok r /\ outflow_residual (deep s) p (lift U) (lift Uhat) = Ok (lift r).
Proof.
  intros s p U Uhat D Lu Lh. destruct (four U Lu) as (a & b & c & d & ->), (four Uhat Lh) as (a' & b' & c' & d' & ->).
  unfold outflow_residual, outflow_state, get_conservative_fields. cbn [deep s_dim]. rewrite D. cbn.
  eexists. split; [|split; [reflexivity|]]; [reflexivity|]. unfold lift. cbn. f_equal. unfold Rdiv. flat.
Qed.
Print Assumptions c88_outflow.

(** The ends of the stack as symmetries or inviscid walls: nothing is left of the condition. *)
Theorem c88_ends : forall s U g, length U = 4%nat -> exists r, inviscid_wall_residual (deep s) (lift U) (lift U) [0; 0; g] = Ok r /\ forall k, nth k r 0 = 0.
Proof.
  intros s U g Lu. destruct (four U Lu) as (a & b & c & d & ->). unfold inviscid_wall_residual, inviscid_wall_state, get_conservative_fields. cbn.
  eexists. split; [reflexivity|]. intros [|[|[|[|[|k]]]]]; cbn; try ring. destruct k; reflexivity.
Qed.
Print Assumptions c88_ends.

(** ** Integrals over prisms *)

Lemma weighted_app q q' f : weighted (q ++ q') f = weighted q f + weighted q' f.
Proof. induction q as [|[w x] q IH]; cbn; [ring|]. rewrite IH. ring. Qed.

Lemma prism_weighted K q f : weighted (prism_rule K q) f = weighted q (fun x => over_height K (fun j => f (at_height K x j))).
Proof.
  unfold prism_rule, over_height. induction q as [|[w x] q IH]; [reflexivity|]. cbn [map concat fst snd weighted]. rewrite weighted_app, IH. f_equal. clear IH.
  induction (heights K) as [|[v j] z IHz]; cbn; [ring|]. rewrite IHz. ring.
Qed.

Lemma prism_in K q w y : In (w, y) (prism_rule K q) -> exists v x j, In (v, x) q /\ y = at_height K x j.
Proof.
  unfold prism_rule. intros I. apply in_concat in I. destruct I as (l & L & I). apply in_map_iff in L. destruct L as ([v x] & <- & L).
  apply in_map_iff in I. destruct I as ([u j] & E & I). cbn in E. injection E as _ <-. exists v, x, j. split; [exact L|reflexivity].
Qed.

Lemma lid_weighted K q f : weighted (lid_rule K q) f = weighted q (fun x => fold_right (fun ge a => f (at_lid K x (snd ge)) + a) 0 (lids K)).
Proof.
  unfold lid_rule. induction q as [|[w x] q IH]; [reflexivity|]. cbn [map concat fst snd weighted]. rewrite weighted_app, IH. f_equal. clear IH.
  induction (lids K) as [|[g e] z IHz]; cbn; [ring|]. rewrite IHz. ring.
Qed.

Lemma lid_in K q w y : In (w, y) (lid_rule K q) -> exists v x g e, In (v, x) q /\ In (g, e) (lids K) /\ y = at_lid K x e.
Proof.
  unfold lid_rule. intros I. apply in_concat in I. destruct I as (l & L & I). apply in_map_iff in L. destruct L as ([v x] & <- & L).
  apply in_map_iff in I. destruct I as ([g e] & E & I). cbn in E. injection E as _ <-. exists v, x, g, e. repeat split; assumption.
Qed.

Lemma integral_app q q' f a b : integral q f = Ok a -> integral q' f = Ok b -> integral (q ++ q') f = Ok (a + b).
Proof.
  revert a. induction q as [|[w x] q IH]; intros a A B; cbn in *.
  - injection A as <-. rewrite B. f_equal. ring.
  - unfold bind in *. destruct (f x) as [h|]; [|discriminate]. destruct (integral q f) as [c|] eqn:E; [|discriminate]. injection A as <-.
    rewrite (IH c eq_refl B). f_equal. ring.
Qed.

Lemma height_scale K a f : over_height K (fun j => a * f j) = a * over_height K f.
Proof. apply weighted_scale. Qed.
Lemma height_plus K f h : over_height K (fun j => f j + h j) = over_height K f + over_height K h.
Proof. apply weighted_plus. Qed.
Lemma height_ext K f h : (forall j, f j = h j) -> over_height K f = over_height K h.
Proof. intros H. apply weighted_ext. intros w x _. apply H. Qed.

Lemma height_inner K r (V : nat -> list R) : length r = 4%nat -> (forall j, length (V j) = 5%nat) ->
  over_height K (fun j => inner (lift r) (V j)) = inner r (map (fun k => over_height K (fun j => nth k (V j) 0)) [0; 1; 2; 4]%nat).
Proof.
  intros Lr LV. destruct (four r Lr) as (a & b & c & d & ->).
  rewrite (height_ext K _ (fun j => a * nth 0 (V j) 0 + (b * nth 1 (V j) 0 + (c * nth 2 (V j) 0 + d * nth 4 (V j) 0)))).
  - rewrite !height_plus, !height_scale. cbn. ring.
  - intros j. pose proof (LV j) as L. destruct (V j) as [|v0 [|v1 [|v2 [|v3 [|v4 [|? ?]]]]]]; try discriminate. cbn. ring.
Qed.

Lemma bind_ok {A B} (x : result A) (f : A -> result B) b : bind x f = Ok b -> exists a, x = Ok a /\ f a = Ok b.
Proof. destruct x as [a|e]; [|discriminate]. intros H. exists a. split; [reflexivity|exact H]. Qed.

Lemma integral_values q f a : integral q f = Ok a -> exists h, (forall w x, In (w, x) q -> f x = Ok (h x)) /\ a = weighted q h.
Proof.
  intros H. exists (fun x => match f x with Ok v => v | Err _ => 0 end). revert a H. induction q as [|[w x] q IH]; intros a H; cbn in *.
  - injection H as <-. split; [intros ? ? []|reflexivity].
  - apply bind_ok in H. destruct H as (h & Hf & H). apply bind_ok in H. destruct H as (b & Hb & H). injection H as <-. destruct (IH b Hb) as [A ->].
    split; [|rewrite Hf; reflexivity]. intros w' x' [E|I]; [injection E as <- <-; rewrite Hf; reflexivity|apply (A w' x' I)].
Qed.

Lemma integral_prism K q f (h : nat -> nat -> R) : (forall w x j, In (w, x) q -> f (at_height K x j) = Ok (h x j)) ->
  integral (prism_rule K q) f = Ok (weighted q (fun x => over_height K (h x))).
Proof.
  intros H. rewrite (integral_make _ _ (fun p => match f p with Ok v => v | Err _ => 0 end)).
  - rewrite prism_weighted. f_equal. apply weighted_ext. intros w x I. apply height_ext. intros j. rewrite (H w x j I). reflexivity.
  - intros w y I. apply prism_in in I. destruct I as (v & x & j & I & ->). rewrite (H v x j I). reflexivity.
Qed.

Lemma integral_lids K q f (h : nat -> R -> nat -> R) : (forall w x g e, In (w, x) q -> In (g, e) (lids K) -> f (at_lid K x e) = Ok (h x g e)) ->
  integral (lid_rule K q) f = Ok (weighted q (fun x => fold_right (fun ge a => h x (fst ge) (snd ge) + a) 0 (lids K))).
Proof.
  intros H. rewrite (integral_make _ _ (fun p => match f p with Ok v => v | Err _ => 0 end)).
  - rewrite lid_weighted. f_equal. apply weighted_ext. intros w x I. specialize (H w x). revert H. generalize (lids K). intros l H. induction l as [|[g e] l IH]; [reflexivity|].
    cbn [fold_right fst snd]. rewrite (H g e I (or_introl eq_refl)), IH; [reflexivity|]. intros g' e' I' J. apply H; [exact I'|right; exact J].
  - intros w y I. apply lid_in in I. destruct I as (v & x & g & e & I & J & ->). rewrite (H v x g e I J). reflexivity.
Qed.

Lemma ok_inj (a b : R) : Ok a = Ok b -> a = b.
Proof. congruence. Qed.

Lemma eight (l : list R) : length l = 8%nat -> exists e0 e1 e2 e3 e4 e5 e6 e7, l = [e0; e1; e2; e3; e4; e5; e6; e7].
Proof.
  destruct l as [|e0 [|e1 [|e2 [|e3 [|e4 [|e5 [|e6 [|e7 [|? ?]]]]]]]]]; intros H; try discriminate. exists e0, e1, e2, e3, e4, e5, e6, e7. reflexivity.
Qed.

Lemma height_entries K F (M : nat -> matrix) : length F = 8%nat ->
  over_height K (fun j => inner F (flat_map (fun k => map (fun l => entry (M j) k l) [0; 1]%nat) [0; 1; 2; 4]%nat)) =
  inner F (flat_map (fun k => map (fun l => over_height K (fun j => entry (M j) k l)) [0; 1]%nat) [0; 1; 2; 4]%nat).
Proof.
  intros L. destruct (eight F L) as (e0 & e1 & e2 & e3 & e4 & e5 & e6 & e7 & ->). cbn [flat_map map app inner].
  rewrite !height_plus, !height_scale. repeat (f_equal; try reflexivity). unfold over_height. apply weighted_zero. reflexivity.
Qed.

Lemma fold_lids K a f : fold_right (fun ge b => a * fst ge * f (snd ge) + b) 0 (lids K) = a * weighted (lids K) f.
Proof. induction (lids K) as [|[g e] l IH]; cbn; [ring|]. rewrite IH. ring. Qed.

Section Extrude.
Variables (s : settings) (K : stack) (m m3 : mesh) (r : rules) (u u3 : unknowns).
Hypothesis D : s_dim s = 2%nat.
Hypothesis Rs : s_riemann s = LaxFriedrich \/ s_riemann s = HLL.
Hypothesis Lu : forall x, length (uU u x) = 4%nat /\ length (uUhat u x) = 4%nat.
Hypothesis Ln : forall y, length (normal m y) = 2%nat.
Hypothesis Mp : prisms K m m3.
Hypothesis Up : plane_flow K u u3.

Lemma convection_prism t A : well_formed 3 t -> vertical K m3 t ->
  convection_form s m (r_cvol r) (r_cbnd r) u (flatten K t) = Ok A ->
  convection_form (deep s) m3 (r_cvol (prism_rules K r)) (r_cbnd (prism_rules K r)) u3 t = Ok A.
Proof.
  intros Wf Ve H. destruct Mp as (N1 & N2 & Of). destruct Up as (U1 & U2). unfold convection_form in *. cbn [prism_rules r_cvol r_cbnd].
  set (F := fun x => match convection_F s u x with Ok f => entries f | Err _ => [] end).
  set (Fn := fun y => match convection_Fn s m u y with Ok f => f | Err _ => [] end).
  assert (HF : forall x, length (F x) = 8%nat /\ (exists f, convection_F s u x = Ok f /\ entries f = F x) /\ forall j, exists F3, convection_F (deep s) u3 (at_height K x j) = Ok F3 /\
    inner (entries F3) (entries (tdV t (at_height K x j))) = inner (F x) (flat_map (fun k => map (fun l => entry (tdV t (at_height K x j)) k l) [0; 1]%nat) [0; 1; 2; 4]%nat) + push_up s (uU u x) * entry (tdV t (at_height K x j)) 3 2).
  { intros x. destruct (volume_flux s (uU u x) D (proj1 (Lu x))) as (f & F3 & Lf & E & E3 & I).
    assert (EF : convection_F s u x = Ok f) by exact E. unfold F. rewrite EF. split; [exact Lf|]. split; [exists f; split; reflexivity|]. intros j. exists F3. split.
    - unfold convection_F. rewrite (proj1 (U1 x j)). exact E3.
    - destruct (Wf (at_height K x j)) as (_ & _ & Rm & Cm & Lm). apply I; assumption. }
  assert (HFn : forall y, length (Fn y) = 4%nat /\ convection_Fn s m u y = Ok (Fn y) /\ forall j, convection_Fn (deep s) m3 u3 (at_height K y j) = Ok (lift (Fn y))).
  { intros y. destruct (c88_flux s (uU u y) (uUhat u y) (normal m y) D Rs (proj1 (Lu y)) (proj2 (Lu y)) (Ln y)) as (f & Lf & E & E3).
    assert (EF : convection_Fn s m u y = Ok f) by exact E. unfold Fn. rewrite EF. split; [exact Lf|]. split; [reflexivity|]. intros j. unfold convection_Fn. rewrite (proj1 (U1 y j)), (proj2 (U1 y j)), N1. exact E3. }
  assert (HL : forall x g e, In (g, e) (lids K) -> convection_Fn (deep s) m3 u3 (at_lid K x e) = Ok [0; 0; 0; push_up s (uU u x) * g; 0]).
  { intros x g e I. unfold convection_Fn. rewrite (proj1 (U2 x g e I)), (proj2 (U2 x g e I)), (proj2 (N2 g e x I)). apply lid_flux; [exact Rs|apply Lu]. }
  rewrite (integral_make (r_cvol r) _ (fun x => - inner (F x) (entries (tdV (flatten K t) x)))) in H.
  2: { intros w x _. destruct (HF x) as (_ & (f & -> & <-) & _). reflexivity. }
  rewrite (integral_make (r_cbnd r) _ (fun y => inner (Fn y) (tV (flatten K t) y))) in H.
  2: { intros w y _. rewrite (proj1 (proj2 (HFn y))). reflexivity. }
  rewrite (integral_make (r_cbnd r) _ (fun y => - mask m y * inner (Fn y) (tVhat (flatten K t) y))) in H.
  2: { intros w y _. rewrite (proj1 (proj2 (HFn y))). reflexivity. }
  cbn [bind] in H. apply ok_inj in H. rewrite <- H. clear H A.
  rewrite (integral_prism K (r_cvol r) _ (fun x j => - (inner (F x) (flat_map (fun k => map (fun l => entry (tdV t (at_height K x j)) k l) [0; 1]%nat) [0; 1; 2; 4]%nat) + push_up s (uU u x) * entry (tdV t (at_height K x j)) 3 2))).
  2: { intros w x j _. destruct (HF x) as (_ & _ & Hj). destruct (Hj j) as (F3 & -> & E). cbn [bind]. rewrite E. reflexivity. }
  rewrite (integral_app (prism_rule K (r_cbnd r)) (lid_rule K (r_cvol r)) (fun y => let* f := convection_Fn (deep s) m3 u3 y in Ok (inner f (tV t y)))
    (weighted (r_cbnd r) (fun y => over_height K (fun j => inner (lift (Fn y)) (tV t (at_height K y j)))))
    (weighted (r_cvol r) (fun x => fold_right (fun ge a => push_up s (uU u x) * fst ge * nth 3 (tV t (at_lid K x (snd ge))) 0 + a) 0 (lids K)))).
  2: { apply (integral_prism K (r_cbnd r) _ (fun y j => inner (lift (Fn y)) (tV t (at_height K y j)))). intros w y j _. rewrite (proj2 (proj2 (HFn y)) j). reflexivity. }
  2: { apply (integral_lids K (r_cvol r) _ (fun x g e => push_up s (uU u x) * g * nth 3 (tV t (at_lid K x e)) 0)). intros w x g e _ I. rewrite (HL x g e I). cbn [bind]. f_equal.
       destruct (Wf (at_lid K x e)) as (L & _). destruct (tV t (at_lid K x e)) as [|v0 [|v1 [|v2 [|v3 [|v4 [|? ?]]]]]]; try discriminate. cbn. ring. }
  rewrite (integral_app (prism_rule K (r_cbnd r)) (lid_rule K (r_cvol r)) (fun y => let* f := convection_Fn (deep s) m3 u3 y in Ok (- mask m3 y * inner f (tVhat t y)))
    (weighted (r_cbnd r) (fun y => over_height K (fun j => - mask m y * inner (lift (Fn y)) (tVhat t (at_height K y j)))))
    (weighted (r_cvol r) (fun x => fold_right (fun ge a => - push_up s (uU u x) * fst ge * (mask m3 (at_lid K x (snd ge)) * nth 3 (tVhat t (at_lid K x (snd ge))) 0) + a) 0 (lids K)))).
  2: { apply (integral_prism K (r_cbnd r) _ (fun y j => - mask m y * inner (lift (Fn y)) (tVhat t (at_height K y j)))). intros w y j _. rewrite (proj2 (proj2 (HFn y)) j). cbn [bind]. unfold mask. rewrite Of. reflexivity. }
  2: { apply (integral_lids K (r_cvol r) _ (fun x g e => - push_up s (uU u x) * g * (mask m3 (at_lid K x e) * nth 3 (tVhat t (at_lid K x e)) 0))). intros w x g e _ I. rewrite (HL x g e I). cbn [bind]. f_equal.
       destruct (Wf (at_lid K x e)) as (_ & L & _). destruct (tVhat t (at_lid K x e)) as [|v0 [|v1 [|v2 [|v3 [|v4 [|? ?]]]]]]; try discriminate. cbn. ring. }
  cbn [bind]. f_equal.
  rewrite (weighted_ext (r_cvol r) (fun x => fold_right (fun ge a => - push_up s (uU u x) * fst ge * (mask m3 (at_lid K x (snd ge)) * nth 3 (tVhat t (at_lid K x (snd ge))) 0) + a) 0 (lids K)) (fun _ => 0)).
  2: { intros w x _. rewrite (fold_lids K (- push_up s (uU u x)) (fun e => mask m3 (at_lid K x e) * nth 3 (tVhat t (at_lid K x e)) 0)). pose proof (proj2 (Ve x)) as Vx. unfold mask. cbv beta in Vx |- *. rewrite Vx. ring. }
  rewrite (weighted_ext (r_cvol r) (fun x => fold_right (fun ge a => push_up s (uU u x) * fst ge * nth 3 (tV t (at_lid K x (snd ge))) 0 + a) 0 (lids K))
    (fun x => push_up s (uU u x) * over_height K (fun j => entry (tdV t (at_height K x j)) 3 2))).
  2: { intros w x _. rewrite (fold_lids K (push_up s (uU u x)) (fun e => nth 3 (tV t (at_lid K x e)) 0)). rewrite (proj1 (Ve x)). reflexivity. }
  rewrite (weighted_ext (r_cvol r) (fun x => over_height K (fun j => - (inner (F x) (flat_map (fun k => map (fun l => entry (tdV t (at_height K x j)) k l) [0; 1]%nat) [0; 1; 2; 4]%nat) + push_up s (uU u x) * entry (tdV t (at_height K x j)) 3 2)))
    (fun x => - inner (F x) (entries (tdV (flatten K t) x)) + - (push_up s (uU u x) * over_height K (fun j => entry (tdV t (at_height K x j)) 3 2)))).
  2: { intros w x _. rewrite (height_ext K _ (fun j => -1 * inner (F x) (flat_map (fun k => map (fun l => entry (tdV t (at_height K x j)) k l) [0; 1]%nat) [0; 1; 2; 4]%nat) + (- push_up s (uU u x)) * entry (tdV t (at_height K x j)) 3 2)) by (intros j; ring).
       rewrite height_plus, !height_scale, (height_entries K (F x) (fun j => tdV t (at_height K x j)) (proj1 (HF x))). unfold flatten. cbn [tdV entries]. ring. }
  rewrite weighted_plus.
  rewrite (weighted_ext (r_cbnd r) (fun y => over_height K (fun j => inner (lift (Fn y)) (tV t (at_height K y j)))) (fun y => inner (Fn y) (tV (flatten K t) y))).
  2: { intros w y _. apply (height_inner K (Fn y) (fun j => tV t (at_height K y j)) (proj1 (HFn y))). intros j. apply (Wf (at_height K y j)). }
  rewrite (weighted_ext (r_cbnd r) (fun y => over_height K (fun j => - mask m y * inner (lift (Fn y)) (tVhat t (at_height K y j)))) (fun y => - mask m y * inner (Fn y) (tVhat (flatten K t) y))).
  2: { intros w y _. rewrite height_scale. f_equal. apply (height_inner K (Fn y) (fun j => tVhat t (at_height K y j)) (proj1 (HFn y))). intros j. apply (Wf (at_height K y j)). }
  rewrite (weighted_zero (r_cvol r) (fun _ => 0)) by reflexivity.
  rewrite (weighted_ext (r_cvol r) (fun x => - (push_up s (uU u x) * over_height K (fun j => entry (tdV t (at_height K x j)) 3 2))) (fun x => -1 * (push_up s (uU u x) * over_height K (fun j => entry (tdV t (at_height K x j)) 3 2)))) by (intros; ring).
  rewrite weighted_scale. ring.
Qed.

Lemma time_prism sc sc3 t A : well_formed 3 t -> plane_levels sc -> plane_scheme K sc sc3 ->
  time_form sc (r_time r) u (flatten K t) = Ok A -> time_form sc3 (r_time (prism_rules K r)) u3 t = Ok A.
Proof.
  intros Wf Pl Ps H. unfold time_form in *. cbn [prism_rules r_time].
  rewrite (integral_make _ _ (fun x => inner (time_derivative sc (uU u x) x) (tV (flatten K t) x))) in H by reflexivity. apply ok_inj in H. rewrite <- H. clear H A.
  assert (T : forall x, length (time_derivative sc (uU u x) x) = 4%nat /\ forall j, time_derivative sc3 (lift (uU u x)) (at_height K x j) = lift (time_derivative sc (uU u x) x)).
  { intros x. destruct (four (uU u x) (proj1 (Lu x))) as (a & b & c & d & E). rewrite E. destruct sc as [dt n|dt n nm1], sc3 as [dt' n'|dt' n' nm1']; cbn in Ps, Pl; try contradiction.
    - destruct Ps as [-> Ps]. destruct (four (n x) (Pl x)) as (a' & b' & c' & d' & En). cbn [time_derivative]. rewrite En. split; [reflexivity|]. intros j. rewrite Ps, En. unfold lift. cbn. flat.
    - destruct Ps as [-> Ps]. destruct (four (n x) (proj1 (Pl x))) as (a' & b' & c' & d' & En). destruct (four (nm1 x) (proj2 (Pl x))) as (a2 & b2 & c2 & d2 & Em).
      cbn [time_derivative]. rewrite En, Em. split; [reflexivity|]. intros j. rewrite (proj1 (Ps x j)), (proj2 (Ps x j)), En, Em. unfold lift. cbn. flat. }
  rewrite (integral_prism K (r_time r) _ (fun x j => inner (lift (time_derivative sc (uU u x) x)) (tV t (at_height K x j)))).
  - f_equal. apply weighted_ext. intros w x _. apply (height_inner K _ (fun j => tV t (at_height K x j)) (proj1 (T x))). intros j. apply (Wf (at_height K x j)).
  - intros w x j _. rewrite (proj1 (proj1 Up x j)), (proj2 (T x) j). reflexivity.
Qed.

Lemma boundary_prism bs bs3 ends t A : well_formed 3 t -> Forall2 (plane_term K) bs bs3 ->
  (forall b w y, In b ends -> In (w, y) (b_rule b) -> exists f, b_vector b y = Ok f /\ forall k, nth k f 0 = 0) ->
  boundary_form bs (flatten K t) = Ok A -> boundary_form (bs3 ++ ends) t = Ok A.
Proof.
  intros Wf F En. revert A. induction F as [|b b3 bs bs3 [Rb Vb] F IH]; intros A H; cbn [app boundary_form] in *.
  - injection H as <-. clear -En. induction ends as [|b ends IH]; [reflexivity|]. cbn [boundary_form].
    rewrite (integral_make _ _ (fun _ => 0)).
    + rewrite IH by (intros b' w y I; apply (En b' w y); right; exact I). cbn [bind]. rewrite weighted_zero by reflexivity. f_equal. ring.
    + intros w y I. destruct (En b w y (or_introl eq_refl) I) as (f & -> & Z). cbn [bind]. f_equal.
      generalize (tVhat t y). clear -Z. induction f as [|a f IHf]; intros [|v l]; cbn; try reflexivity. pose proof (Z 0%nat) as Z0. cbn in Z0. subst a. rewrite IHf; [ring|]. intros k. apply (Z (S k)).
  - apply bind_ok in H. destruct H as (a & Ha & H). apply bind_ok in H. destruct H as (c & Hc & H). injection H as <-. rewrite (IH c Hc). clear IH Hc F.
    apply integral_values in Ha. destruct Ha as (h & Hh & ->). rewrite Rb.
    set (v := fun y => match b_vector b y with Ok l => l | Err _ => [] end).
    assert (Hv : forall w y, In (w, y) (b_rule b) -> b_vector b y = Ok (v y) /\ h y = inner (v y) (tVhat (flatten K t) y)).
    { intros w y I. specialize (Hh w y I). apply bind_ok in Hh. destruct Hh as (l & E & Hl). injection Hl as <-. unfold v. rewrite E. split; reflexivity. }
    rewrite (integral_prism K (b_rule b) _ (fun y j => inner (lift (v y)) (tVhat t (at_height K y j)))).
    + cbn [bind]. f_equal. f_equal. apply weighted_ext. intros w y I. destruct (Hv w y I) as [E ->].
      apply (height_inner K (v y) (fun j => tVhat t (at_height K y j)) (proj1 (Vb y 0%nat _ E))). intros j. apply (Wf (at_height K y j)).
    + intros w y j I. destruct (Hv w y I) as [E _]. rewrite (proj2 (Vb y j _ E)). reflexivity.
Qed.

Lemma domain_prism ls ls3 t A : well_formed 3 t -> Forall2 (plane_layer s K) ls ls3 ->
  domain_form s ls u (flatten K t) = Ok A -> domain_form (deep s) ls3 u3 t = Ok A.
Proof.
  intros Wf F. revert A. induction F as [|l l3 ls ls3 [Rb Vb] F IH]; intros A H; cbn [domain_form] in *; [exact H|].
  apply bind_ok in H. destruct H as (a & Ha & H). apply bind_ok in H. destruct H as (c & Hc & H). injection H as <-. rewrite (IH c Hc). clear IH Hc F.
  apply integral_values in Ha. destruct Ha as (h & Hh & ->). rewrite Rb.
  set (v := fun y => match sponge_residual s (s_target l y) (s_function l y) (uU u y) with Ok l => l | Err _ => [] end).
  assert (Hv : forall w y, In (w, y) (s_rule l) -> sponge_residual s (s_target l y) (s_function l y) (uU u y) = Ok (v y) /\ h y = inner (v y) (tV (flatten K t) y)).
  { intros w y I. specialize (Hh w y I). apply bind_ok in Hh. destruct Hh as (q & E & Hl). injection Hl as <-. unfold v. rewrite E. split; reflexivity. }
  rewrite (integral_prism K (s_rule l) _ (fun y j => inner (lift (v y)) (tV t (at_height K y j)))).
  - cbn [bind]. f_equal. f_equal. apply weighted_ext. intros w y I. destruct (Hv w y I) as [E ->].
    apply (height_inner K (v y) (fun j => tV t (at_height K y j)) (proj1 (Vb y 0%nat _ _ (proj1 (Lu y)) E))). intros j. apply (Wf (at_height K y j)).
  - intros w y j I. destruct (Hv w y I) as [E _]. rewrite (proj1 (proj1 Up y j)). rewrite (proj2 (Vb y j _ _ (proj1 (Lu y)) E)). reflexivity.
Qed.
End Extrude.

(** The form takes the value of the plane problem, with the test function integrated over the height. *)
Theorem c88_form : forall s K m m3 r u u3 bs bs3 ends ls ls3 sc sc3 t a,
  s_dim s = 2%nat -> s_law s = Inviscid -> s_riemann s = LaxFriedrich \/ s_riemann s = HLL ->
  (forall x, length (uU u x) = 4%nat /\ length (uUhat u x) = 4%nat) -> (forall y, length (normal m y) = 2%nat) ->
  prisms K m m3 -> plane_flow K u u3 -> plane_levels sc -> plane_scheme K sc sc3 ->
  Forall2 (plane_term K) bs bs3 -> Forall2 (plane_layer s K) ls ls3 ->
  (forall b w y, In b ends -> In (w, y) (b_rule b) -> exists f, b_vector b y = Ok f /\ forall k, nth k f 0 = 0) ->
  well_formed 3 t -> vertical K m3 t ->
  weak_form s m r bs ls sc u (flatten K t) = Ok a ->
  weak_form (deep s) m3 (prism_rules K r) (bs3 ++ ends) ls3 sc3 u3 t = Ok a.
Proof.
  intros s K m m3 r u u3 bs bs3 ends ls ls3 sc sc3 t a D La Rs Lu Ln Mp Up Pl Ps Fb Fl En Wf Ve H. unfold weak_form in *.
  cbn [deep s_law]. rewrite La in *. apply bind_ok in H. destruct H as (c & Hc & H). cbn [bind] in H.
  apply bind_ok in H. destruct H as (b & Hb & H). apply bind_ok in H. destruct H as (l & Hl & H). apply bind_ok in H. destruct H as (h & Hh & H).
  rewrite (convection_prism s K m m3 r u u3 D Rs Lu Ln Mp Up t c Wf Ve Hc). cbn [bind].
  rewrite (boundary_prism K bs bs3 ends t b Wf Fb En Hb). cbn [bind].
  fold (deep s). rewrite (domain_prism s K u u3 Lu Up ls ls3 t l Wf Fl Hl). cbn [bind].
  rewrite (time_prism K r u u3 Lu Up sc sc3 t h Wf Pl Ps Hh). exact H.
Qed.
Print Assumptions c88_form.

(** A solution of the plane problem is one of the problem in three dimensions. *)
Theorem c88_solves : forall s K m m3 r u u3 bs bs3 ends ls ls3 sc sc3 (W W3 : test -> Prop),
  s_dim s = 2%nat -> s_law s = Inviscid -> s_riemann s = LaxFriedrich \/ s_riemann s = HLL ->
  (forall x, length (uU u x) = 4%nat /\ length (uUhat u x) = 4%nat) -> (forall y, length (normal m y) = 2%nat) ->
  prisms K m m3 -> plane_flow K u u3 -> plane_levels sc -> plane_scheme K sc sc3 ->
  Forall2 (plane_term K) bs bs3 -> Forall2 (plane_layer s K) ls ls3 ->
  (forall b w y, In b ends -> In (w, y) (b_rule b) -> exists f, b_vector b y = Ok f /\ forall k, nth k f 0 = 0) ->
  (forall t, W3 t -> W (flatten K t) /\ well_formed 3 t /\ vertical K m3 t) ->
  solves s m r bs ls sc W u ->
  solves (deep s) m3 (prism_rules K r) (bs3 ++ ends) ls3 sc3 W3 u3.
Proof.
  intros s K m m3 r u u3 bs bs3 ends ls ls3 sc sc3 W W3 D La Rs Lu Ln Mp Up Pl Ps Fb Fl En HW H t Wt. destruct (HW t Wt) as (W2 & Wf & Ve).
  exact (c88_form s K m m3 r u u3 bs bs3 ends ls ls3 sc sc3 t 0 D La Rs Lu Ln Mp Up Pl Ps Fb Fl En Wf Ve (H _ W2)).
Qed.
Print Assumptions c88_solves.

(** Walls and outflows of the plane problem and of the problem in three dimensions belong together. *)
Theorem c88_terms : forall s K m m3 u u3 q p, s_dim s = 2%nat ->
  (forall x, length (uU u x) = 4%nat /\ length (uUhat u x) = 4%nat) -> (forall y, length (normal m y) = 2%nat) -> prisms K m m3 -> plane_flow K u u3 ->
  plane_term K (mk_bterm q (fun y => inviscid_wall_residual s (uU u y) (uUhat u y) (normal m y)))
    (mk_bterm (prism_rule K q) (fun y => inviscid_wall_residual (deep s) (uU u3 y) (uUhat u3 y) (normal m3 y))) /\
  plane_term K (mk_bterm q (fun y => outflow_residual s p (uU u y) (uUhat u y)))
    (mk_bterm (prism_rule K q) (fun y => outflow_residual (deep s) p (uU u3 y) (uUhat u3 y))) /\
  forall w y, In (w, y) (lid_rule K q) -> exists f, inviscid_wall_residual (deep s) (uU u3 y) (uUhat u3 y) (normal m3 y) = Ok f /\ forall k, nth k f 0 = 0.
Proof.
  intros s K m m3 u u3 q p D Lu Ln (N1 & N2 & _) (U1 & U2). split; [|split].
  - split; [reflexivity|]. intros y j r H. cbn [b_vector] in *. destruct (U1 y j) as [-> ->]. rewrite N1.
    destruct (c88_wall s (uU u y) (uUhat u y) (normal m y) D (proj1 (Lu y)) (proj2 (Lu y)) (Ln y)) as (r' & L & E & E3). rewrite E in H. injection H as <-. split; [exact L|exact E3].
  - split; [reflexivity|]. intros y j r H. cbn [b_vector] in *. destruct (U1 y j) as [-> ->].
    destruct (c88_outflow s p (uU u y) (uUhat u y) D (proj1 (Lu y)) (proj2 (Lu y))) as (r' & L & E & E3). rewrite E in H. injection H as <-. split; [exact L|exact E3].
  - intros w y I. apply lid_in in I. destruct I as (v & x & g & e & _ & J & ->). destruct (U2 x g e J) as [-> ->]. rewrite (proj2 (N2 g e x J)). apply c88_ends, Lu.
Qed.
Print Assumptions c88_terms.

(** So do sponge layers with the same target. *)
Theorem c88_sponge : forall s K q rho v1 v2 p (f f3 : nat -> R), s_dim s = 2%nat -> (forall x j, f3 (at_height K x j) = f x) ->
  plane_layer s K (mk_sponge q (fun _ => mk_flow (Some rho) (Some [v1; v2]) None (Some p) None None None None None None None None None None) f)
    (mk_sponge (prism_rule K q) (fun _ => mk_flow (Some rho) (Some [v1; v2; 0]) None (Some p) None None None None None None None None None None) f3).
Proof.
  intros s K q rho v1 v2 p f f3 D Hf. split; [reflexivity|]. intros x j U r L H. cbn [s_target s_function] in *. rewrite Hf.
  destruct (four U L) as (a & b & c & d & ->). unfold sponge_residual in *. cbn in H. injection H as <-. split; [reflexivity|].
  unfold lift. cbn. f_equal. unfold Rdiv. flat.
Qed.
Print Assumptions c88_sponge.

(** One layer of height 1 above the two cells of the periodic strip of C85, with symmetry conditions below and above. *)
Definition one_layer : stack := mk_stack [(1, 0%nat)] [(1, 1%nat); (-1, 2%nat)] (fun x _ => (x * 3)%nat) (fun x e => (e + x * 3)%nat).
Definition layer_mesh : mesh :=
  mk_mesh (fun p => element ring_mesh (p / 3)) (fun p => match (p mod 3)%nat with 0%nat => facet ring_mesh (p / 3) | S e => (2 + e + 2 * element ring_mesh (p / 3))%nat end)
          (fun p => match (p mod 3)%nat with 0%nat => normal ring_mesh (p / 3) ++ [0] | 1%nat => [0; 0; 1] | _ => [0; 0; -1] end) (fun f => (2 <=? f)%nat).
Definition layer_flow : unknowns :=
  mk_unknowns (fun p => lift (uU (ring_flow 2 1) (p / 3))) (fun p => match (p mod 3)%nat with 0%nat => lift (uUhat (ring_flow 2 1) (p / 3)) | _ => lift (uU (ring_flow 2 1) (p / 3)) end) (fun _ => P_Trace.no_grads).
Definition layer_tests : test -> Prop := fun t => exists k A B, (k < 5)%nat /\ t = constant_test 3 layer_mesh k A B.
Definition symmetric_ends : list bterm :=
  [mk_bterm (lid_rule one_layer (r_cvol ring_rules)) (fun y => inviscid_wall_residual (deep air) (uU layer_flow y) (uUhat layer_flow y) (normal layer_mesh y))].

Lemma above x : (x * 3 / 3 = x)%nat /\ ((x * 3) mod 3 = 0)%nat.
Proof. split; [apply Nat.div_mul; discriminate|apply Nat.mod_mul; discriminate]. Qed.
Lemma beside x e : (e < 3)%nat -> ((e + x * 3) / 3 = x)%nat /\ ((e + x * 3) mod 3 = e)%nat.
Proof. intros H. split; [rewrite Nat.div_add, Nat.div_small by lia; lia|rewrite Nat.mod_add by discriminate; apply Nat.mod_small, H]. Qed.

Lemma layer_flat k A B : (k < 5)%nat -> ring_tests (flatten one_layer (constant_test 3 layer_mesh k A B)).
Proof.
  intros K. 
  assert (E : exists k' (b : bool), (k' < 4)%nat /\ forall c : bool, map (fun i => over_height one_layer (fun _ => nth i (if c then basis 5 k else repeat 0 5) 0)) [0; 1; 2; 4]%nat = if b && c then basis 4 k' else repeat 0 4).
  { destruct k as [|[|[|[|[|k]]]]]; [exists 0%nat, true|exists 1%nat, true|exists 2%nat, true|exists 0%nat, false|exists 3%nat, true|lia]; (split; [lia|]); intros [|]; unfold over_height, basis; cbn; flat. }
  destruct E as (k' & b & K' & E). exists k', (fun e => b && A e), (fun f => b && B f). split; [exact K'|].
  unfold flatten, constant_test. cbn [tV tdV tVhat]. f_equal; apply functional_extensionality; intros x.
  - rewrite <- E. cbn [one_layer at_height layer_mesh element]. rewrite (proj1 (above x)). reflexivity.
  - unfold tabulate. cbn. f_equal. unfold over_height. cbn. flat.
  - rewrite <- E. cbn [one_layer at_height layer_mesh facet]. rewrite (proj1 (above x)), (proj2 (above x)). reflexivity.
Qed.

Example c88_example : let sc := IE (1 / 2) (in_cells (5 / 2) (1 / 2) (75 / 28)) in let sc3 := IE (1 / 2) (fun p => lift (in_cells (5 / 2) (1 / 2) (75 / 28) (p / 3))) in
  ((forall x, length (uU (ring_flow 2 1) x) = 4%nat /\ length (uUhat (ring_flow 2 1) x) = 4%nat) /\ (forall y, length (normal ring_mesh y) = 2%nat)) /\
  (prisms one_layer ring_mesh layer_mesh /\ plane_flow one_layer (ring_flow 2 1) layer_flow) /\
  (plane_levels sc /\ plane_scheme one_layer sc sc3) /\
  (forall t, layer_tests t -> ring_tests (flatten one_layer t) /\ well_formed 3 t /\ vertical one_layer layer_mesh t) /\
  solves air ring_mesh ring_rules [] [] sc ring_tests (ring_flow 2 1) /\
  solves (deep air) layer_mesh (prism_rules one_layer ring_rules) symmetric_ends [] sc3 layer_tests layer_flow.
Proof.
  cbv zeta. set (sc := IE (1 / 2) (in_cells (5 / 2) (1 / 2) (75 / 28))). set (sc3 := IE (1 / 2) (fun p => lift (in_cells (5 / 2) (1 / 2) (75 / 28) (p / 3)))).
  assert (L : (forall x, length (uU (ring_flow 2 1) x) = 4%nat /\ length (uUhat (ring_flow 2 1) x) = 4%nat) /\ (forall y, length (normal ring_mesh y) = 2%nat)).
  { split; [intros x; split; reflexivity|]. intros y. cbn. destruct y as [|[|[|[|[|y]]]]]; reflexivity. }
  assert (M : prisms one_layer ring_mesh layer_mesh).
  { split; [|split].
    - intros y j. cbn [one_layer at_height layer_mesh normal]. rewrite (proj2 (above y)), (proj1 (above y)). reflexivity.
    - intros g e x I. cbn [one_layer lids In] in I. destruct I as [I|[I|[]]]; injection I as <- <-; (split; [lra|]); cbn [one_layer at_lid layer_mesh normal]; rewrite ?(proj2 (beside x 1 ltac:(lia))), ?(proj2 (beside x 2 ltac:(lia))); reflexivity.
    - intros y j. cbn [one_layer at_height layer_mesh outer_facet facet]. rewrite (proj2 (above y)), (proj1 (above y)). destruct y as [|[|[|[|y]]]]; reflexivity. }
  assert (U : plane_flow one_layer (ring_flow 2 1) layer_flow).
  { split.
    - intros x j. cbn [one_layer at_height layer_flow uU uUhat]. rewrite (proj2 (above x)), (proj1 (above x)). split; reflexivity.
    - intros x g e I. cbn [one_layer lids In] in I. destruct I as [I|[I|[]]]; injection I as <- <-; cbn [one_layer at_lid layer_flow uU uUhat]; rewrite ?(proj2 (beside x 1 ltac:(lia))), ?(proj1 (beside x 1 ltac:(lia))), ?(proj2 (beside x 2 ltac:(lia))), ?(proj1 (beside x 2 ltac:(lia))); split; reflexivity. }
  assert (P : plane_levels sc /\ plane_scheme one_layer sc sc3).
  { split; [intros x; reflexivity|]. split; [reflexivity|]. intros x j. cbn [one_layer at_height]. rewrite (proj1 (above x)). reflexivity. }
  assert (T : forall t, layer_tests t -> ring_tests (flatten one_layer t) /\ well_formed 3 t /\ vertical one_layer layer_mesh t).
  { intros t (k & A & B & K & ->). split; [apply layer_flat, K|]. split.
    - intros x. unfold constant_test. cbn [tV tVhat tdV]. destruct (A (element layer_mesh x)), (B (facet layer_mesh x)); repeat split.
    - intros x. unfold constant_test. cbn [tV tVhat tdV]. split.
      + cbn [one_layer lids weighted at_lid layer_mesh element]. rewrite (proj1 (beside x 1 ltac:(lia))), (proj1 (beside x 2 ltac:(lia))). unfold over_height. cbn [one_layer heights weighted]. unfold entry, tabulate. cbn. ring.
      + cbn [one_layer lids weighted at_lid]. cbn [layer_mesh outer_facet facet]. rewrite (proj2 (beside x 1 ltac:(lia))), (proj2 (beside x 2 ltac:(lia))). cbn [plus Nat.leb]. ring. }
  assert (Sv : solves air ring_mesh ring_rules [] [] sc ring_tests (ring_flow 2 1)).
  { apply ring_solves; [lra|intros x; reflexivity|cbn; field|cbn; field|].
    intros k x K X. destruct k as [|[|[|[|]]]]; [lia| | | |lia]; destruct x as [|[|]]; [| |lia| | |lia| | |lia]; cbn; field. }
  split; [exact L|]. split; [split; [exact M|exact U]|]. split; [exact P|]. split; [exact T|]. split; [exact Sv|].
  change symmetric_ends with ([] ++ symmetric_ends).
  apply (c88_solves air one_layer ring_mesh layer_mesh ring_rules (ring_flow 2 1) layer_flow [] [] symmetric_ends [] [] sc sc3 ring_tests layer_tests); try reflexivity; try (apply L); try (apply P); try assumption; [left; reflexivity|constructor|constructor| ].
  intros b w y [<-|[]] I. cbn [b_rule b_vector] in *.
  exact (proj2 (proj2 (c88_terms air one_layer ring_mesh layer_mesh (ring_flow 2 1) layer_flow (r_cvol ring_rules) 0 eq_refl (proj1 L) (proj2 L) M U)) w y I).
Qed.
