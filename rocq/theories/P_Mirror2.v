(** C82: the discrete problem of the half and of the whole. *)
From Coq Require Import Reals String List Arith Bool Lia Lra FunctionalExtensionality.
From Coquelicot Require Import Coquelicot.
From Verif Require Import Base M_Bla M_Flow M_Formulation M_Weak M_Mixed S_Flow S_Chars S_Formulation S_Stress S_Weak S_Mixed S_Trace S_Turn S_Mirror L_Flow L_Formulation L_Weak P_Eos P_Chars P_Jacobian P_Split P_Riemann P_Boundary P_Unknowns P_Walls L_Small L_Curve L_Turn P_Stress P_Trace L_Turn2 P_Mixed P_Turn P_Turn2 P_Turn3 P_Mirror.
From Verif Require Import P_Bla S_Formulation.
Import ListNotations.
Open Scope R_scope.
Open Scope list_scope.

(** ** Fields on both sides *)

Lemma both_here {X} (h t : nat -> X) x : both h t (2 * x)%nat = h x.
Proof. unfold both. rewrite Nat.odd_mul, Nat.div2_double. reflexivity. Qed.

Lemma both_there {X} (h t : nat -> X) x : both h t (image x) = t x.
Proof. unfold both, image. rewrite Nat.odd_succ, Nat.even_mul, Nat.div2_succ_double. reflexivity. Qed.

Lemma integral_app q q' f a b : integral q f = Ok a -> integral q' f = Ok b -> integral (q ++ q') f = Ok (a + b).
Proof.
  revert a. induction q as [|[w x] q IH]; intros a H H'.
  - apply ok_inj in H. subst a. cbn [app]. rewrite Rplus_0_l. exact H'.
  - cbn [app integral] in *. apply bind_ok in H as (c & Ec & H). apply bind_ok in H as (e & Ee & H). apply ok_inj in H. subst a.
    rewrite Ec. cbn [bind]. rewrite (IH e Ee H'). cbn [bind]. f_equal. ring.
Qed.

Lemma integral_pair q f1 f2 g1 g2 a b : integral q f1 = Ok a -> integral q f2 = Ok b ->
  (forall w x, In (w, x) q -> forall v1 v2, f1 x = Ok v1 -> f2 x = Ok v2 -> exists z1 z2, g1 x = Ok z1 /\ g2 x = Ok z2 /\ z1 + z2 = v1 + v2) ->
  exists c e, integral q g1 = Ok c /\ integral q g2 = Ok e /\ c + e = a + b.
Proof.
  revert a b. induction q as [|[w x] q IH]; intros a b H1 H2 K.
  - apply ok_inj in H1, H2. subst. exists 0, 0. repeat split.
  - cbn [integral] in *. apply bind_ok in H1 as (v1 & E1 & H1). apply bind_ok in H1 as (r1 & I1 & H1). apply ok_inj in H1. subst a.
    apply bind_ok in H2 as (v2 & E2 & H2). apply bind_ok in H2 as (r2 & I2 & H2). apply ok_inj in H2. subst b.
    destruct (K w x (or_introl eq_refl) v1 v2 E1 E2) as (z1 & z2 & Z1 & Z2 & Zs).
    destruct (IH r1 r2 I1 I2) as (c & e & C & E & S); [intros w' x' I; exact (K w' x' (or_intror I))|].
    exists (w * z1 + c), (w * z2 + e). rewrite Z1, Z2, C, E. split; [reflexivity|]. split; [reflexivity|].
    replace (w * z1 + c + (w * z2 + e)) with (w * (z1 + z2) + (c + e)) by ring. rewrite Zs, S. ring.
Qed.

Lemma integral_moved q p g v : integral q (fun x => g (p x)) = Ok v <-> integral (map (fun wx => (fst wx, p (snd wx))) q) g = Ok v.
Proof.
  assert (E : integral q (fun x => g (p x)) = integral (map (fun wx => (fst wx, p (snd wx))) q) g).
  { induction q as [|[w x] q IH]; [reflexivity|]. cbn [integral map fst snd]. now rewrite IH. }
  rewrite E. reflexivity.
Qed.

(** An integral over the half and its image from the two integrals over the half. *)
Lemma integral_doubled q f1 f2 g a b : integral q f1 = Ok a -> integral q f2 = Ok b ->
  (forall w x, In (w, x) q -> forall v1 v2, f1 x = Ok v1 -> f2 x = Ok v2 -> exists z1 z2, g (2 * x)%nat = Ok z1 /\ g (image x) = Ok z2 /\ z1 + z2 = v1 + v2) ->
  integral (doubled q) g = Ok (a + b).
Proof.
  intros H1 H2 K. destruct (integral_pair q f1 f2 (fun x => g (2 * x)%nat) (fun x => g (image x)) a b H1 H2 K) as (c & e & C & E & S).
  rewrite <- S. unfold doubled. apply integral_app.
  - apply (integral_moved q (fun x => 2 * x)%nat g c). exact C.
  - apply (integral_moved q image g e). exact E.
Qed.

(** The same, point by point. *)
Lemma integral_both q f1 f2 g a b : integral q f1 = Ok a -> integral q f2 = Ok b ->
  (forall w x, In (w, x) q -> g (2 * x)%nat = f1 x /\ g (image x) = f2 x) -> integral (doubled q) g = Ok (a + b).
Proof.
  intros H1 H2 K. apply (integral_doubled q f1 f2 g a b H1 H2). intros w x I v1 v2 E1 E2. destruct (K w x I) as [K1 K2]. exists v1, v2. rewrite K1, K2. repeat split; assumption.
Qed.

Section Doubling.
Variables (s : settings) (A : nat -> nat -> R) (plane : nat -> bool) (m : mesh) (r : rules) (u : unknowns) (t : test).
Notation d := (s_dim s).
Notation M2 := (doubled_mesh d A plane m).
Notation u2 := (doubled_unknowns d A u).
Notation m' := (turn_mesh d A m).
Notation u' := (turn_unknowns d A (uQ u) u).
Notation th := (here_test t).
Notation tt := (there_test t).

Lemma flux_here y : convection_Fn s M2 u2 (2 * y)%nat = convection_Fn s m u y.
Proof. unfold convection_Fn. cbn [doubled_unknowns doubled_mesh uU uUhat normal]. now rewrite !both_here. Qed.

Lemma flux_there y : convection_Fn s M2 u2 (image y) = convection_Fn s m' u' y.
Proof. unfold convection_Fn. cbn [doubled_unknowns doubled_mesh turn_unknowns turn_mesh uU uUhat normal]. now rewrite !both_there. Qed.

Lemma mask_here y : mask M2 (2 * y)%nat = if plane (facet m y) then 1 else mask m y.
Proof. unfold mask. cbn [doubled_mesh facet outer_facet]. rewrite both_here, Nat.div2_double. now destruct (plane (facet m y)). Qed.

Lemma mask_there y : mask M2 (image y) = if plane (facet m y) then 1 else mask m' y.
Proof.
  unfold mask. cbn [doubled_mesh turn_mesh facet outer_facet]. rewrite both_there. destruct (plane (facet m y)) eqn:P.
  - rewrite Nat.div2_double, P. reflexivity.
  - unfold image. rewrite Nat.div2_succ_double, P. reflexivity.
Qed.

(** At the plane what comes from the two sides cancels. *)
Hypothesis Plane : forall w y, In (w, y) (r_cbnd r) -> plane (facet m y) = true -> outer_facet m (facet m y) = true /\
  exists f f', convection_Fn s m u y = Ok f /\ convection_Fn s m' u' y = Ok f' /\ inner f (tVhat t (2 * y)%nat) + inner f' (tVhat t (image y)) = 0.

Lemma convection_doubled a b : convection_form s m (r_cvol r) (r_cbnd r) u th = Ok a -> convection_form s m' (r_cvol r) (r_cbnd r) u' tt = Ok b ->
  convection_form s M2 (doubled (r_cvol r)) (doubled (r_cbnd r)) u2 t = Ok (a + b).
Proof.
  unfold convection_form. intros H K. apply bind_ok in H as (a1 & H1 & H). apply bind_ok in H as (a2 & H2 & H). apply bind_ok in H as (a3 & H3 & H). apply ok_inj in H. subst a.
  apply bind_ok in K as (b1 & K1 & K). apply bind_ok in K as (b2 & K2 & K). apply bind_ok in K as (b3 & K3 & K). apply ok_inj in K. subst b.
  erewrite (integral_both _ _ _ _ _ _ H1 K1); cycle 1.
  { intros w x _. unfold convection_F. cbn [doubled_unknowns uU turn_unknowns here_test there_test tdV]. rewrite both_here, both_there. split; reflexivity. }
  cbn [bind]. erewrite (integral_both _ _ _ _ _ _ H2 K2); cycle 1.
  { intros w y _. rewrite flux_here, flux_there. split; reflexivity. }
  cbn [bind]. erewrite (integral_doubled _ _ _ _ _ _ H3 K3); cycle 1.
  { intros w y I v1 v2 E1 E2. rewrite flux_here, flux_there, mask_here, mask_there. destruct (plane (facet m y)) eqn:P.
    - destruct (Plane w y I P) as (Of & f & f' & F & F' & Z). rewrite F in E1 |- *. rewrite F' in E2 |- *. cbn [bind] in E1, E2 |- *. apply ok_inj in E1, E2.
      eexists. eexists. split; [reflexivity|]. split; [reflexivity|]. rewrite <- E1, <- E2. unfold mask. cbn [turn_mesh facet outer_facet]. rewrite Of. lra.
    - exists v1, v2. split; [exact E1|]. split; [exact E2|reflexivity]. }
  cbn [bind]. f_equal. ring.
Qed.

Lemma boundary_doubled bs bs' a b : Forall2 (fun x x' => b_rule x' = b_rule x) bs bs' -> boundary_form bs th = Ok a -> boundary_form bs' tt = Ok b ->
  boundary_form (doubled_terms bs bs') t = Ok (a + b).
Proof.
  intros F. revert a b. induction F as [|x x' bs bs' E F IH]; intros a b H K.
  - apply ok_inj in H, K. subst. cbn. f_equal. ring.
  - cbn [boundary_form] in H, K. unfold doubled_terms. cbn [combine map boundary_form fst snd b_rule b_vector]. fold (doubled_terms bs bs').
    apply bind_ok in H as (a1 & H1 & H). apply bind_ok in H as (a2 & H2 & H). apply ok_inj in H. subst a.
    apply bind_ok in K as (b1 & K1 & K). apply bind_ok in K as (b2 & K2 & K). apply ok_inj in K. subst b. rewrite E in K1.
    erewrite (integral_both _ _ _ _ _ _ H1 K1); cycle 1; [intros w y _; rewrite both_here, both_there; split; reflexivity|].
    cbn [bind]. rewrite (IH a2 b2 H2 K2). cbn [bind]. f_equal. ring.
Qed.

Lemma domain_doubled ls ls' a b : Forall2 (fun x x' => s_rule x' = s_rule x) ls ls' -> domain_form s ls u th = Ok a -> domain_form s ls' u' tt = Ok b ->
  domain_form s (doubled_layers ls ls') u2 t = Ok (a + b).
Proof.
  intros F. revert a b. induction F as [|x x' ls ls' E F IH]; intros a b H K.
  - apply ok_inj in H, K. subst. cbn. f_equal. ring.
  - cbn [domain_form] in H, K. unfold doubled_layers. cbn [combine map domain_form fst snd s_rule s_target s_function]. fold (doubled_layers ls ls').
    apply bind_ok in H as (a1 & H1 & H). apply bind_ok in H as (a2 & H2 & H). apply ok_inj in H. subst a.
    apply bind_ok in K as (b1 & K1 & K). apply bind_ok in K as (b2 & K2 & K). apply ok_inj in K. subst b. rewrite E in K1.
    erewrite (integral_both _ _ _ _ _ _ H1 K1); cycle 1; [intros w y _; cbn [doubled_unknowns uU]; rewrite !both_here, !both_there; split; reflexivity|].
    cbn [bind]. rewrite (IH a2 b2 H2 K2). cbn [bind]. f_equal. ring.
Qed.

Lemma time_doubled sc q a b : time_form sc q u th = Ok a -> time_form (turn_scheme d A sc) q u' tt = Ok b ->
  time_form (doubled_scheme d A sc) (doubled q) u2 t = Ok (a + b).
Proof.
  unfold time_form. intros H K. apply (integral_both _ _ _ _ _ _ H K). intros w x _. cbn [doubled_unknowns uU].
  destruct sc; cbn [doubled_scheme turn_scheme time_derivative]; rewrite !both_here, !both_there; split; reflexivity.
Qed.

Lemma form_doubled bs bs' ls ls' sc a b : s_law s = Inviscid -> Forall2 (fun x x' => b_rule x' = b_rule x) bs bs' -> Forall2 (fun x x' => s_rule x' = s_rule x) ls ls' ->
  weak_form s m r bs ls sc u th = Ok a -> weak_form s m' r bs' ls' (turn_scheme d A sc) u' tt = Ok b ->
  weak_form s M2 (doubled_rules r) (doubled_terms bs bs') (doubled_layers ls ls') (doubled_scheme d A sc) u2 t = Ok (a + b).
Proof.
  intros In Fb Fl H K. unfold weak_form in *. rewrite In in *. cbn [bind] in *.
  apply bind_ok in H as (a1 & H1 & H). apply bind_ok in H as (a2 & H2 & H). apply bind_ok in H as (a3 & H3 & H). apply bind_ok in H as (a4 & H4 & H). apply ok_inj in H. subst a.
  apply bind_ok in K as (b1 & K1 & K). apply bind_ok in K as (b2 & K2 & K). apply bind_ok in K as (b3 & K3 & K). apply bind_ok in K as (b4 & K4 & K). apply ok_inj in K. subst b.
  cbn [doubled_rules r_cvol r_cbnd r_time]. rewrite (convection_doubled a1 b1 H1 K1). cbn [bind]. rewrite (boundary_doubled bs bs' a2 b2 Fb H2 K2). cbn [bind].
  rewrite (domain_doubled ls ls' a3 b3 Fl H3 K3). cbn [bind]. rewrite (time_doubled sc _ a4 b4 H4 K4). cbn [bind]. f_equal. ring.
Qed.
End Doubling.

(** ** The symmetry condition *)

Lemma slips_value s m u y : 1 < s_gamma s -> slips s m u y -> exists st, valid st /\ length (st_u st) = s_dim s /\ length (normal m y) = s_dim s /\ inner (normal m y) (normal m y) = 1 /\
  uU u y = conservative_list (s_gamma s) st /\ uUhat u y = conservative_list (s_gamma s) (slip st (normal m y) (s_gamma s)).
Proof.
  intros G (Ln & N & LU & (st & V & Dim & EU) & (r & Er & Z)). exists st. do 5 (split; [assumption|]). rewrite EU in Er.
  destruct (c50_inviscid_wall s st (normal m y) (uUhat u y) G V Dim Ln N LU) as (r' & Er' & _ & Eq). rewrite Er in Er'. apply ok_inj in Er'. subst r'. now apply Eq.
Qed.

(** The facet state of the symmetry is its own image. *)
Lemma slips_turn s m u y : 1 < s_gamma s -> slips s m u y -> turn (s_dim s) (reflection (normal m y)) (uUhat u y) = uUhat u y.
Proof.
  intros G Sl. destruct (slips_value s m u y G Sl) as (st & V & Dim & Ln & N & _ & E). rewrite E, <- Dim. apply reflection_slip; trivial. congruence.
Qed.

(** What a flow and its image send into the plane cancels, for every common test value. *)
Lemma slips_cancel s m u y v : 1 < s_gamma s -> fair s -> slips s m u y -> length v = (s_dim s + 2)%nat ->
  exists f f', convection_Fn s m u y = Ok f /\
    convection_Fn s (turn_mesh (s_dim s) (reflection (normal m y)) m) (turn_unknowns (s_dim s) (reflection (normal m y)) (uQ u) u) y = Ok f' /\ inner f v + inner f' v = 0.
Proof.
  intros G Fa Sl Lv. pose proof (slips_turn s m u y G Sl) as Tu. destruct (slips_value s m u y G Sl) as (st & V & Dim & Ln & N & E & Eh).
  destruct (c50_slip st (normal m y) (s_gamma s) G V ltac:(congruence) N) as (Vs & Ls & _). rewrite Dim in Ls.
  destruct (proj1 (c82_balanced s st (normal m y) G V Dim Ln N) Fa) as (f & f' & Ef & Ef' & B). exists f, f'.
  unfold convection_Fn. cbn [turn_unknowns turn_mesh uU uUhat normal]. rewrite Tu, (reflection_normal (s_dim s) _ Ln N), E, Eh. split; [exact Ef|]. split; [exact Ef'|].
  destruct (c81_flux s (reflection (normal m y)) _ (conservative_list (s_gamma s) st) (normal m y) f G (reflection_orthogonal _ _ Ln N) Vs Ls ltac:(rewrite conservative_list_length; lia) Ln N Ef) as [Lf X].
  rewrite <- Eh, Tu, Eh, (reflection_normal (s_dim s) _ Ln N), Ef' in X. apply ok_inj in X.
  assert (Lf' : length f' = (s_dim s + 2)%nat) by (rewrite X; apply turn_length).
  rewrite !inner_total by congruence. rewrite Lf, Lf', <- total_plus. rewrite (total_ext _ (fun _ => 0)); [apply total_zero|].
  intros k K. rewrite <- Rmult_plus_distr_r, (B k K). ring.
Qed.

Lemma turned_terms_rules d A bs bs' : turned_terms d A bs bs' -> Forall2 (fun x x' => b_rule x' = b_rule x) bs bs'.
Proof. intros T. induction T as [|x x' l l' [E _] T IH]; constructor; trivial. Qed.

Lemma turned_layers_rules s A ls ls' : turned_layers s A ls ls' -> Forall2 (fun x x' => s_rule x' = s_rule x) ls ls'.
Proof. intros T. induction T as [|x x' l l' [E _] T IH]; constructor; trivial. Qed.

Lemma symmetry_vanishes s m u q t : 1 < s_gamma s -> well_formed (s_dim s) t -> (forall w y, In (w, y) q -> slips s m u y) ->
  integral q (fun y => let* r := inviscid_wall_residual s (uU u y) (uUhat u y) (normal m y) in Ok (inner r (tVhat t y))) = Ok 0.
Proof.
  intros G Wf Sl. induction q as [|[w y] q IH]; [reflexivity|]. cbn [integral]. rewrite (IH (fun w' y' I => Sl w' y' (or_intror I))).
  destruct (Sl w y (or_introl eq_refl)) as (Ln & N & LU & (st & V & Dim & EU) & (r & Er & Z)). rewrite EU in Er |- *.
  destruct (c50_inviscid_wall s st (normal m y) (uUhat u y) G V Dim Ln N LU) as (r' & Er' & Lr & _). rewrite Er in Er'. apply ok_inj in Er'. subst r'. rewrite Er. cbn [bind].
  f_equal. destruct (Wf y) as (_ & Lv & _). rewrite inner_total by congruence. rewrite (total_ext _ (fun _ => 0)); [rewrite total_zero; ring|]. intros k K. rewrite (Z k). ring.
Qed.

(** A solution on the half with a symmetry boundary, put together with its mirror image, solves the discrete problem on the whole, where the plane
    is an interior of the mesh like any other. *)
Theorem c82_half : forall s n plane m r bs bs' ls ls' sc q (W : test -> Prop) u, 1 < s_gamma s -> s_law s = Inviscid -> fair s ->
  length n = s_dim s -> inner n n = 1 -> gas s u -> unit_normals (s_dim s) m ->
  (forall y, plane (facet m y) = true -> normal m y = n /\ outer_facet m (facet m y) = true) ->
  (forall t, W t -> well_formed (s_dim s) t) -> levels_have (s_dim s + 2) sc ->
  turned_terms (s_dim s) (reflection n) bs bs' -> turned_layers s (reflection n) ls ls' ->
  (forall w y, In (w, y) q -> slips s m u y) -> (forall w y, In (w, y) (r_cbnd r) -> plane (facet m y) = true -> slips s m u y) ->
  solves s m r (symmetry_term s m u q :: bs) ls sc W u ->
  solves s (doubled_mesh (s_dim s) (reflection n) plane m) (doubled_rules r) (doubled_terms bs bs') (doubled_layers ls ls') (doubled_scheme (s_dim s) (reflection n) sc)
    (doubled_space (s_dim s) (reflection n) plane m W) (doubled_unknowns (s_dim s) (reflection n) u) /\
  forall w y, In (w, y) (r_cbnd r) -> plane (facet m y) = true ->
    uUhat (doubled_unknowns (s_dim s) (reflection n) u) (image y) = uUhat (doubled_unknowns (s_dim s) (reflection n) u) (2 * y)%nat.
Proof.
  intros s n plane m r bs bs' ls ls' sc q W u G In Fa Ln N Gas Nm Pl Wf Lv Tb Tl Sq Sl H. set (d := s_dim s) in *. set (A := reflection n).
  pose proof (reflection_orthogonal d n Ln N) as O. fold A in O.
  assert (H' : forall t, W t -> weak_form s m r bs ls sc u t = Ok 0).
  { intros t Wt. specialize (H t Wt). unfold weak_form in *. cbn [boundary_form symmetry_term b_rule b_vector] in H.
    rewrite (symmetry_vanishes s m u q t G (Wf t Wt) Sq) in H. cbn [bind] in H.
    apply bind_ok in H as (c & Hc & H). apply bind_ok in H as (e & He & H). apply bind_ok in H as (b & Hb & H). apply bind_ok in Hb as (b0 & Hb0 & Hb). apply ok_inj in Hb.
    rewrite Rplus_0_l in Hb. subst b0. rewrite Hc. cbn [bind]. rewrite He. cbn [bind]. rewrite Hb0. exact H. }
  split.
  - intros t (Wh & Wt & Wft & Sv). replace 0 with (0 + 0) by ring.
    assert (Wtt : well_formed d (there_test t)) by (intros x; exact (Wft (image x))).
    apply form_doubled; trivial.
    + intros w y I P. destruct (Pl y P) as [En Of]. split; [exact Of|]. pose proof (slips_cancel s m u y (tVhat t (2 * y)%nat) G Fa (Sl w y I P)) as X. rewrite En in X.
      destruct (Wft (2 * y)%nat) as (_ & L2 & _). destruct (X L2) as (f & f' & Ef & Ef' & Z). exists f, f'. rewrite (Sv y P). repeat split; assumption.
    + exact (turned_terms_rules _ _ _ _ Tb).
    + exact (turned_layers_rules _ _ _ _ Tl).
    + exact (H' _ Wh).
    + pose proof (c81_form s A m r bs bs' ls ls' sc u (uQ u) (turn_test d A (there_test t)) 0 G O Gas Nm (turn_well_formed d n _) Lv Tb Tl (fun F => False_ind _ (F In)) (H' _ Wt)) as X.
      fold d in X. pose proof (test_twice d n Ln N (there_test t) Wtt) as Tw. fold A in Tw. rewrite Tw in X. exact X.
  - intros w y I P. cbn [doubled_unknowns uUhat]. rewrite both_here, both_there. destruct (Pl y P) as [En _]. pose proof (slips_turn s m u y G (Sl w y I P)) as X. rewrite En in X. exact X.
Qed.
Print Assumptions c82_half.

(** The same step after step, with both time schemes. *)
Theorem c82_run : forall s n plane m r (bs bs' : nat -> list bterm) ls ls' q (W : test -> Prop) dt (U : nat -> unknowns), 1 < s_gamma s -> s_law s = Inviscid -> fair s ->
  length n = s_dim s -> inner n n = 1 -> unit_normals (s_dim s) m ->
  (forall y, plane (facet m y) = true -> normal m y = n /\ outer_facet m (facet m y) = true) ->
  (forall t, W t -> well_formed (s_dim s) t) -> (forall k, gas s (U k)) ->
  (forall k, turned_terms (s_dim s) (reflection n) (bs k) (bs' k)) -> turned_layers s (reflection n) ls ls' ->
  (forall k w y, In (w, y) q -> slips s m (U (S k)) y) -> (forall k w y, In (w, y) (r_cbnd r) -> plane (facet m y) = true -> slips s m (U (S k)) y) ->
  let A := reflection n in let V := fun k => doubled_unknowns (s_dim s) A (U k) in
  let whole := fun k sc => solves s (doubled_mesh (s_dim s) A plane m) (doubled_rules r) (doubled_terms (bs k) (bs' k)) (doubled_layers ls ls') sc (doubled_space (s_dim s) A plane m W) in
  (forall k, solves s m r (symmetry_term s m (U (S k)) q :: bs (S k)) ls (IE dt (uU (U k))) W (U (S k)) ->
     whole (S k) (IE dt (uU (V k))) (V (S k))) /\
  (forall k, solves s m r (symmetry_term s m (U (S (S k))) q :: bs (S (S k))) ls (BDF dt (uU (U (S k))) (uU (U k))) W (U (S (S k))) ->
     whole (S (S k)) (BDF dt (uU (V (S k))) (uU (V k))) (V (S (S k)))).
Proof.
  intros s n plane m r bs bs' ls ls' q W dt U G In Fa Ln N Nm Pl Wf Gas Tb Tl Sq Sl A V whole.
  assert (L : forall k x, length (uU (U k) x) = (s_dim s + 2)%nat) by (intros k x; apply (gas_lengths s (U k) (Gas k))).
  split; intros k H.
  - exact (proj1 (c82_half s n plane m r _ _ ls ls' (IE dt (uU (U k))) q W _ G In Fa Ln N (Gas (S k)) Nm Pl Wf (L k) (Tb (S k)) Tl (Sq k) (Sl k) H)).
  - exact (proj1 (c82_half s n plane m r _ _ ls ls' (BDF dt (uU (U (S k))) (uU (U k))) q W _ G In Fa Ln N (Gas (S (S k))) Nm Pl Wf (fun x => conj (L (S k) x) (L k x)) (Tb (S (S k))) Tl (Sq (S k)) (Sl (S k)) H)).
Qed.
Print Assumptions c82_run.

(** ** The weak condition holds in every point *)

Lemma integral_none q f v : integral q f = Ok v -> (forall w x, In (w, x) q -> forall a, f x = Ok a -> a = 0) -> v = 0.
Proof.
  revert v. induction q as [|[w x] q IH]; intros v H K; [apply ok_inj in H; congruence|]. cbn [integral] in H. apply bind_ok in H as (a & Ea & H). apply bind_ok in H as (b & Eb & H). apply ok_inj in H.
  rewrite (K w x (or_introl eq_refl) a Ea), (IH b Eb (fun w' x' I => K w' x' (or_intror I))) in H. rewrite <- H. ring.
Qed.

Lemma integral_squares q f v : integral q f = Ok v -> (forall w x, In (w, x) q -> 0 < w) -> (forall w x, In (w, x) q -> forall a, f x = Ok a -> 0 <= a) ->
  0 <= v /\ (v = 0 -> forall w x, In (w, x) q -> f x = Ok 0).
Proof.
  revert v. induction q as [|[w x] q IH]; intros v H P K; [apply ok_inj in H; subst v; split; [lra|intros _ w x []]|].
  cbn [integral] in H. apply bind_ok in H as (a & Ea & H). apply bind_ok in H as (b & Eb & H). apply ok_inj in H. subst v.
  destruct (IH b Eb (fun w' x' I => P w' x' (or_intror I)) (fun w' x' I => K w' x' (or_intror I))) as [B0 B].
  pose proof (P w x (or_introl eq_refl)) as W0. pose proof (K w x (or_introl eq_refl) a Ea) as A0. pose proof (Rmult_le_pos w a (Rlt_le _ _ W0) A0) as WA. split; [lra|].
  intros Z w' x' [E|I]; [|apply (B ltac:(lra) w' x' I)]. injection E as <- <-. rewrite Ea. f_equal. assert (Z' : w * a = 0) by lra. apply Rmult_integral in Z' as [Z'|Z']; lra.
Qed.

Lemma boundary_none bs t v : boundary_form bs t = Ok v -> (forall b w y, In b bs -> In (w, y) (b_rule b) -> exists k, tVhat t y = repeat 0 k) -> v = 0.
Proof.
  revert v. induction bs as [|b bs IH]; intros v H K; [apply ok_inj in H; congruence|]. cbn [boundary_form] in H. apply bind_ok in H as (a & Ea & H). apply bind_ok in H as (c & Ec & H). apply ok_inj in H.
  rewrite (IH c Ec (fun b' w y I => K b' w y (or_intror I))) in H. rewrite (integral_none _ _ _ Ea) in H; [rewrite <- H; ring|].
  intros w y I z Hz. apply bind_ok in Hz as (f & _ & Hz). apply ok_inj in Hz. destruct (K b w y (or_introl eq_refl) I) as (k & E). rewrite E, L_Weak.inner_zero in Hz. congruence.
Qed.

Lemma domain_none s ls u t v : domain_form s ls u t = Ok v -> (forall x, exists k, tV t x = repeat 0 k) -> v = 0.
Proof.
  intros H K. revert v H. induction ls as [|b ls IH]; intros v H; [apply ok_inj in H; congruence|]. cbn [domain_form] in H. apply bind_ok in H as (a & Ea & H). apply bind_ok in H as (c & Ec & H). apply ok_inj in H.
  rewrite (IH c Ec) in H. rewrite (integral_none _ _ _ Ea) in H; [rewrite <- H; ring|].
  intros w y I z Hz. apply bind_ok in Hz as (f & _ & Hz). apply ok_inj in Hz. destruct (K y) as (k & E). rewrite E, L_Weak.inner_zero in Hz. congruence.
Qed.

Lemma squares_none x : inner x x = 0 -> forall k, nth k x 0 = 0.
Proof.
  induction x as [|a x IH]; intros H k; [now destruct k|]. change (a * a + inner x x = 0) in H. pose proof (inner_pos x). pose proof (Rle_0_sqr a) as Sa. unfold Rsqr in Sa.
  destruct k as [|k]; [|apply IH; lra]. cbn [nth]. assert (Z : a * a = 0) by lra. apply Rmult_integral in Z as [Z|Z]; exact Z.
Qed.

Lemma tabulate_none r c : entries (tabulate r c (fun _ _ => 0)) = repeat 0 (r * c).
Proof.
  apply (nth_ext _ _ 0 0); [rewrite tabulate_length, repeat_length; reflexivity|]. intros i I. rewrite nth_repeat. rewrite tabulate_length in I.
  destruct c as [|c]; [lia|]. rewrite (Nat.div_mod i (S c)) by lia. rewrite (Nat.mul_comm (S c)).
  change (entry (tabulate r (S c) (fun _ _ => 0)) (i / S c) (i mod S c) = 0).
  rewrite entry_tabulate; [reflexivity| |apply Nat.mod_upper_bound; lia]. apply Nat.div_lt_upper_bound; lia.
Qed.

(** The equations of the facets on a symmetry boundary: if the facet functions contain what the condition leaves over - on a straight facet it is a polynomial
    like them, being linear in the element unknown - then nothing is left over. *)
Theorem c82_condition : forall s m r bs ls sc q (W : test -> Prop) u t, 1 < s_gamma s -> gas s u -> unit_normals (s_dim s) m ->
  solves s m r (symmetry_term s m u q :: bs) ls sc W u -> W t -> (forall w y, In (w, y) q -> 0 < w) ->
  (forall x, tV t x = repeat 0 (s_dim s + 2) /\ tdV t x = tabulate (s_dim s + 2) (s_dim s) (fun _ _ => 0)) ->
  (forall w y, In (w, y) q -> inviscid_wall_residual s (uU u y) (uUhat u y) (normal m y) = Ok (tVhat t y)) ->
  (forall b w y, In b bs -> In (w, y) (b_rule b) -> tVhat t y = repeat 0 (s_dim s + 2)) ->
  (forall w y, In (w, y) (r_cbnd r ++ r_dbnd r) -> outer_facet m (facet m y) = true \/ tVhat t y = repeat 0 (s_dim s + 2)) ->
  forall w y, In (w, y) q -> slips s m u y.
Proof.
  intros s m r bs ls sc q W u t G Gas Nm H Wt Pos Tv Tr Tb Tc w y I. specialize (H t Wt). unfold weak_form in H.
  apply bind_ok in H as (c & Hc & H). apply bind_ok in H as (e & He & H). apply bind_ok in H as (b & Hb & H). apply bind_ok in H as (l & Hl & H). apply bind_ok in H as (h & Hh & H). apply ok_inj in H.
  assert (Zc : c = 0).
  { unfold convection_form in Hc. apply bind_ok in Hc as (a1 & A1 & Hc). apply bind_ok in Hc as (a2 & A2 & Hc). apply bind_ok in Hc as (a3 & A3 & Hc). apply ok_inj in Hc.
    rewrite (integral_none _ _ _ A1), (integral_none _ _ _ A2), (integral_none _ _ _ A3) in Hc; [rewrite <- Hc; ring|..]; intros w' x I' z Hz; apply bind_ok in Hz as (f & _ & Hz); apply ok_inj in Hz; rewrite <- Hz.
    - destruct (Tc w' x) as [X|X]; [apply in_or_app; now left|unfold mask; rewrite X; ring|rewrite X, L_Weak.inner_zero; ring].
    - rewrite (proj1 (Tv x)). apply L_Weak.inner_zero.
    - rewrite (proj2 (Tv x)), tabulate_none, L_Weak.inner_zero. ring. }
  assert (Ze : e = 0).
  { assert (D : diffusion_form s m (r_dvol r) (r_dbnd r) u t = Ok e -> e = 0); [|destruct (s_law s); [apply ok_inj in He; congruence|exact (D He)|exact (D He)]].
    clear He. intros He. unfold diffusion_form in He. apply bind_ok in He as (a1 & A1 & He). apply bind_ok in He as (a2 & A2 & He). apply bind_ok in He as (a3 & A3 & He). apply ok_inj in He.
    rewrite (integral_none _ _ _ A1), (integral_none _ _ _ A2), (integral_none _ _ _ A3) in He; [rewrite <- He; ring|..]; intros w' x I' z Hz; apply bind_ok in Hz as (f & _ & Hz); apply ok_inj in Hz; rewrite <- Hz.
    - destruct (Tc w' x) as [X|X]; [apply in_or_app; now right|unfold mask; rewrite X; ring|rewrite X, L_Weak.inner_zero; ring].
    - rewrite (proj1 (Tv x)). apply L_Weak.inner_zero.
    - rewrite (proj2 (Tv x)), tabulate_none, L_Weak.inner_zero. ring. }
  rewrite (domain_none s ls u t l Hl) in H by (intros x; eexists; apply (Tv x)).
  rewrite (integral_none _ _ _ Hh) in H by (intros w' x _ z Hz; apply ok_inj in Hz; rewrite <- Hz, (proj1 (Tv x)); apply L_Weak.inner_zero).
  cbn [boundary_form symmetry_term b_rule b_vector] in Hb. apply bind_ok in Hb as (b1 & B1 & Hb). apply bind_ok in Hb as (b2 & B2 & Hb). apply ok_inj in Hb.
  rewrite (boundary_none bs t b2 B2) in Hb by (intros b' w' y' Ib Iy; eexists; exact (Tb b' w' y' Ib Iy)).
  assert (Z1 : b1 = 0) by lra.
  destruct (integral_squares q _ b1 B1 Pos) as [_ K].
  { intros w' x I' a Ha. rewrite (Tr w' x I') in Ha. cbn [bind] in Ha. apply ok_inj in Ha. rewrite <- Ha. apply inner_pos. }
  specialize (K Z1 w y I). rewrite (Tr w y I) in K. cbn [bind] in K. apply ok_inj in K.
  destruct (Nm y) as [Ln N]. pose proof (gas_lengths s u Gas y) as [_ Lh]. split; [exact Ln|]. split; [exact N|]. split; [exact Lh|]. split; [exact (proj1 (Gas y))|].
  exists (tVhat t y). split; [exact (Tr w y I)|]. intros k. destruct (Nat.lt_ge_cases k (length (tVhat t y))) as [Lk|Lk]; [|now apply nth_overflow].
  now apply squares_none.
Qed.
Print Assumptions c82_condition.
