(** Lemmas on mass systems. *)
From Coq Require Import Reals Lra String List Arith Bool Lia.
From Verif Require Import Base Dict M_Bla M_Flow M_Formulation M_Conditions S_Conditions L_Conditions M_Weak S_Weak L_Weak S_Flow S_Chars S_Formulation L_Formulation M_Project S_Project.
Import ListNotations.
Open Scope R_scope.
Open Scope list_scope.



Lemma quad_weighted q f : quad q f = weighted q f.
Proof. unfold quad. induction q as [|[w x] q IH]; cbn; [reflexivity|]. rewrite IH. reflexivity. Qed.

Lemma in_inside cell e q w x : In (w, x) (inside cell e q) <-> In (w, x) q /\ cell x = e.
Proof. unfold inside. rewrite in_at_points, Nat.eqb_eq. reflexivity. Qed.

Lemma weighted_inside cell e q f : weighted q (fun x => if Nat.eqb (cell x) e then f x else 0) = weighted (inside cell e q) f.
Proof. apply weighted_select. Qed.

Section Cells.
Variable cell : nat -> nat.
Variable shape : nat -> nat -> (nat -> R) -> Prop.
Hypothesis Poly : polynomials cell shape.

Lemma shape_zero_fn e p : shape e p (fun _ => 0).
Proof. apply (shape_constant cell shape Poly). Qed.

(** A polynomial on one cell, continued by zero, is a test function. *)
Lemma bump_space order e p g : order e = Some p -> shape e p g -> cell_space cell shape order (fun x => if Nat.eqb (cell x) e then g x else 0).
Proof.
  intros O G e'. destruct (Nat.eq_dec e' e) as [->|N].
  - rewrite O. apply (shape_local cell shape Poly e p g); [|exact G]. intros x E. rewrite E, Nat.eqb_refl. reflexivity.
  - destruct (order e') as [p'|].
    + apply (shape_local cell shape Poly e' p' (fun _ => 0)); [|apply shape_zero_fn]. intros x E. destruct (Nat.eqb_spec (cell x) e) as [E'|_]; [congruence|reflexivity].
    + intros x E. destruct (Nat.eqb_spec (cell x) e) as [E'|_]; [congruence|reflexivity].
Qed.

(** The equations of a single cell. *)
Lemma cell_equation order q q' f u e p g : solution (mk_system (cell_space cell shape order) q q' f) u -> order e = Some p -> shape e p g ->
  weighted (inside cell e q) (fun x => u x * g x) = weighted (inside cell e q') (fun x => f x * g x).
Proof.
  intros [_ H] O G. specialize (H _ (bump_space order e p g O G)). cbn [y_blf y_lf y_rhs] in H. rewrite !quad_weighted in H.
  rewrite <- !weighted_inside.
  rewrite (weighted_ext q _ (fun x => u x * (if Nat.eqb (cell x) e then g x else 0))) by (intros w x _; destruct (Nat.eqb (cell x) e); ring).
  rewrite (weighted_ext q' _ (fun x => f x * (if Nat.eqb (cell x) e then g x else 0))) by (intros w x _; destruct (Nat.eqb (cell x) e); ring). exact H.
Qed.

Lemma square_zero q f : (forall w x, In (w, x) q -> 0 < w) -> weighted q (fun x => f x * f x) = 0 -> forall w x, In (w, x) q -> f x = 0.
Proof.
  intros P H w x I.
  assert (A : forall q, (forall w x, In (w, x) q -> 0 < w) -> 0 <= weighted q (fun x => f x * f x)).
  { clear. intros q P. induction q as [|[w x] q IH]; cbn; [lra|]. assert (0 <= w * (f x * f x)) by (apply Rmult_le_pos; [left; apply (P w x); left; reflexivity|apply Rle_0_sqr]).
    assert (0 <= weighted q (fun x => f x * f x)) by (apply IH; intros w' x' I; apply (P w' x'); right; exact I). lra. }
  induction q as [|[w' x'] q IH]; [contradiction|]. cbn in H.
  assert (P' : forall w x, In (w, x) q -> 0 < w) by (intros w0 x0 I0; apply (P w0 x0); right; exact I0).
  pose proof (A q P') as B. assert (W : 0 < w') by (apply (P w' x'); left; reflexivity).
  assert (C : 0 <= w' * (f x' * f x')) by (apply Rmult_le_pos; [lra|apply Rle_0_sqr]).
  destruct I as [E|I]; [|apply IH; [exact P'|lra|exact I]]. injection E as -> ->.
  assert (Z : w * (f x * f x) = 0) by lra. apply Rmult_integral in Z. destruct Z as [Z|Z]; [lra|]. apply Rsqr_0_uniq. exact Z.
Qed.

Section Solution.
Variables (order : nat -> option nat) (q q' : rule) (f u : nat -> R).
Hypothesis Sol : solution (mk_system (cell_space cell shape order) q q' f) u.

Lemma solution_outside x : order (cell x) = None -> u x = 0.
Proof. intros O. destruct Sol as [W _]. specialize (W (cell x)). cbn in W. rewrite O in W. apply W. reflexivity. Qed.

Lemma solution_shape e p : order e = Some p -> shape e p u.
Proof. intros O. destruct Sol as [W _]. specialize (W e). cbn in W. rewrite O in W. exact W. Qed.

(** Contents. *)
Lemma solution_content e p : order e = Some p -> weighted (inside cell e q) u = weighted (inside cell e q') f.
Proof.
  intros O. pose proof (cell_equation order q q' f u e p (fun _ => 1) Sol O (shape_constant cell shape Poly e p 1)) as H.
  rewrite (weighted_ext _ u (fun x => u x * 1)) by (intros; ring). rewrite (weighted_ext _ f (fun x => f x * 1)) by (intros; ring). exact H.
Qed.

Hypothesis Ex : forall e p, order e = Some p -> exact cell shape q q' e p.

(** Orthogonality of the error. *)
Lemma solution_orthogonal e p g : order e = Some p -> shape e p g -> weighted (inside cell e q') (fun x => (f x - u x) * g x) = 0.
Proof.
  intros O G. pose proof (cell_equation order q q' f u e p g Sol O G) as H.
  rewrite (Ex e p O u g (solution_shape e p O) G) in H.
  rewrite (weighted_ext _ _ (fun x => f x * g x + (-1) * (u x * g x))) by (intros; ring). rewrite weighted_plus, weighted_scale, H. ring.
Qed.

Lemma solution_best e p g : order e = Some p -> shape e p g ->
  weighted (inside cell e q') (fun x => (f x - g x) * (f x - g x)) =
  weighted (inside cell e q') (fun x => (f x - u x) * (f x - u x)) + weighted (inside cell e q') (fun x => (u x - g x) * (u x - g x)).
Proof.
  intros O G. assert (D : shape e p (fun x => u x + (-1) * g x)) by (apply (shape_plus cell shape Poly); [apply solution_shape, O|apply (shape_scale cell shape Poly), G]).
  pose proof (solution_orthogonal e p _ O D) as H.
  rewrite (weighted_ext _ (fun x => (f x - g x) * (f x - g x)) (fun x => ((f x - u x) * (f x - u x) + (u x - g x) * (u x - g x)) + 2 * ((f x - u x) * (u x + -1 * g x)))) by (intros; ring).
  rewrite weighted_plus, weighted_scale, H, weighted_plus. ring.
Qed.

Lemma solution_exact e p : order e = Some p -> (forall w x, In (w, x) (inside cell e q') -> 0 < w) -> shape e p f ->
  forall w x, In (w, x) (inside cell e q') -> u x = f x.
Proof.
  intros O P F w x I. pose proof (solution_best e p f O F) as H.
  rewrite (weighted_zero _ (fun x => (f x - f x) * (f x - f x))) in H by (intros; ring).
  assert (A : forall g : nat -> R, 0 <= weighted (inside cell e q') (fun x => g x * g x)).
  { intros g. revert P. clear. generalize (inside cell e q') as r. intros r P. induction r as [|[w x] r IH]; cbn; [lra|].
    assert (0 <= w * (g x * g x)) by (apply Rmult_le_pos; [left; apply (P w x); left; reflexivity|apply Rle_0_sqr]).
    assert (0 <= weighted r (fun x => g x * g x)) by (apply IH; intros w' x' I; apply (P w' x'); right; exact I). lra. }
  pose proof (A (fun x => f x - u x)) as A1. pose proof (A (fun x => u x - f x)) as A2. cbn beta in A1, A2.
  assert (Z : weighted (inside cell e q') (fun x => (u x - f x) * (u x - f x)) = 0) by lra.
  pose proof (square_zero _ (fun x => u x - f x) P Z w x I) as E. cbn beta in E. lra.
Qed.

(** Order 0: the mean value. *)
Lemma solution_mean e : order e = Some 0%nat -> 0 < weighted (inside cell e q') (fun _ => 1) -> forall x, cell x = e ->
  u x = weighted (inside cell e q') f / weighted (inside cell e q') (fun _ => 1).
Proof.
  intros O P x E. destruct (shape_zero cell shape Poly e u (solution_shape e 0%nat O)) as [c C].
  pose proof (solution_orthogonal e 0%nat (fun _ => 1) O (shape_constant cell shape Poly e 0%nat 1)) as H.
  rewrite (weighted_ext _ _ (fun y => f y + (- c) * 1)) in H by (intros w y I; apply in_inside in I; rewrite (C y (proj2 I)); ring).
  rewrite weighted_plus, weighted_scale in H. rewrite (C x E). apply Rmult_eq_reg_r with (weighted (inside cell e q') (fun _ => 1)); [|lra].
  unfold Rdiv. rewrite Rmult_assoc, Rinv_l by lra. lra.
Qed.
End Solution.
End Cells.

(** Regions. *)
Lemma in_region_covered name p e : in_region name p e = true <-> covered_by name e p.
Proof.
  unfold in_region, covered_by. rewrite existsb_exists. split.
  - intros (n & I & E). apply String.eqb_eq in E. exists (split_bar p). split; [apply names_unique; reflexivity|]. rewrite E. exact I.
  - intros (names & N & I). apply names_unique in N. cbn in N. subst names. exists (name e). split; [exact I|apply String.eqb_refl].
Qed.

Lemma in_region_free name p e : in_region name p e = false <-> ~ covered_by name e p.
Proof. rewrite <- in_region_covered. destruct (in_region name p e); split; congruence. Qed.

Lemma split_append a s : split_bar (a ++ String bar s)%string = split_bar a ++ split_bar s.
Proof.
  induction a as [|c a IH]; [reflexivity|]. cbn [append split_bar]. destruct (Ascii.eqb c bar).
  - rewrite IH. reflexivity.
  - rewrite IH. destruct (split_bar a) as [|h t] eqn:E; [destruct (split_nonempty a E)|]. reflexivity.
Qed.

Lemma split_joined ks : ks <> [] -> split_bar (join_bar ks) = flat_map split_bar ks.
Proof.
  unfold join_bar. intros H. induction ks as [|k ks IH]; [contradiction|]. destruct ks as [|k' ks].
  - cbn. rewrite app_nil_r. reflexivity.
  - change (String.concat "|" (k :: k' :: ks)) with (k ++ String bar (String.concat "|" (k' :: ks)))%string. rewrite split_append, IH by discriminate. reflexivity.
Qed.

Lemma in_region_joined name ks e : ks <> [] -> (in_region name (join_bar ks) e = true <-> exists k, In k ks /\ covered_by name e k).
Proof.
  intros H. unfold in_region. rewrite (split_joined ks H), existsb_exists. split.
  - intros (n & I & E). apply in_flat_map in I. destruct I as (k & K & I). exists k. split; [exact K|]. apply in_region_covered. unfold in_region. apply existsb_exists. exists n. split; assumption.
  - intros (k & K & C). apply in_region_covered in C. unfold in_region in C. apply existsb_exists in C. destruct C as (n & I & E). exists n. split; [|exact E]. apply in_flat_map. exists k. split; assumption.
Qed.

(** Orders. *)
Lemma max_constant n orders : orders <> [] -> (forall o, In o orders -> o = n) -> max_order orders = n.
Proof.
  intros H C. destruct orders as [|o orders]; [contradiction|]. clear H.
  assert (A : forall l, (forall o, In o l -> o = n) -> (max_order l <= n)%nat) by (induction l as [|a l IH]; cbn; intros D; [lia|rewrite (D a) by (left; reflexivity); pose proof (IH (fun o I => D o (or_intror I))); unfold max_order in *; lia]).
  cbn [max_order fold_right]. rewrite (C o) by (left; reflexivity). specialize (A orders (fun o I => C o (or_intror I))). unfold max_order in A. lia.
Qed.

Lemma fold_last name e layers o :
  (exists p, order_at name layers e p /\ fold_left (fun o pl => if in_region name (fst pl) e then bl_order (snd pl) else o) layers o = p) \/
  (free name layers e /\ fold_left (fun o pl => if in_region name (fst pl) e then bl_order (snd pl) else o) layers o = o).
Proof.
  revert o. induction layers as [|[k l] layers IH]; intros o; [right; split; [intros key l []|reflexivity]|]. cbn [fold_left fst snd].
  destruct (IH (if in_region name k e then bl_order l else o)) as [(p & (b & key & l' & a & E & C & F & O) & V)|[F V]].
  - left. exists p. split; [|exact V]. exists ((k, l) :: b), key, l', a. split; [rewrite E; reflexivity|]. split; [exact C|]. split; [exact F|exact O].
  - destruct (in_region name k e) eqn:R.
    + left. exists (bl_order l). split; [|exact V]. exists [], k, l, layers. split; [reflexivity|]. split; [apply in_region_covered, R|]. split; [exact F|reflexivity].
    + right. split; [|exact V]. intros key l' [E|I]; [injection E as <- <-; apply in_region_free, R|exact (F key l' I)].
Qed.

Lemma order_at_covered name layers e p : order_at name layers e p -> exists key l, In (key, l) layers /\ covered_by name e key /\ bl_order l = p.
Proof. intros (b & key & l & a & -> & C & _ & O). exists key, l. split; [apply in_or_app; right; left; reflexivity|]. split; assumption. Qed.

Lemma order_at_unique name layers e p p' : order_at name layers e p -> order_at name layers e p' -> p = p'.
Proof.
  intros A B. destruct (fold_last name e layers 0) as [(r & _ & V)|[F _]]; [|destruct (order_at_covered _ _ _ _ A) as (k & l & I & C & _); destruct (F k l I C)].
  assert (U : forall q, order_at name layers e q -> fold_left (fun o pl => if in_region name (fst pl) e then bl_order (snd pl) else o) layers 0%nat = q).
  { clear. intros q (b & key & l & a & -> & C & F & O). rewrite fold_left_app. cbn [fold_left fst snd]. rewrite (proj2 (in_region_covered name key e) C).
    destruct (fold_last name e a (bl_order l)) as [(r & A & _)|[_ V]]; [|rewrite <- O; exact V].
    destruct (order_at_covered _ _ _ _ A) as (k & l' & I & C' & _). destruct (F k l' I C'). }
  rewrite <- (U p A), <- (U p' B). reflexivity.
Qed.

Lemma sponge_space_spec name layers order : sponge_space name layers = Ok order ->
  forall e, (order e = None <-> free name layers e) /\ (forall p, order e = Some p <-> order_at name layers e p).
Proof.
  destruct layers as [|[k0 l0] layers]; [discriminate|]. unfold sponge_space. intros H.
  set (all := (k0, l0) :: layers) in *. set (orders := map (fun pl => bl_order (snd pl)) all) in *.
  assert (NE : dkeys all <> []) by discriminate.
  assert (OI : forall (a b : nat -> option nat), Ok a = Ok b -> a = b) by (intros a b Q; injection Q; auto).
  apply OI in H. subst order. intros e. cbv beta zeta.
  assert (V : order_at name all e (if forallb (fun o => Nat.eqb o (bl_order l0)) orders then max_order orders
     else fold_left (fun o pl => if in_region name (fst pl) e then bl_order (snd pl) else o) all (max_order orders)) \/ free name all e).
  { destruct (fold_last name e all (max_order orders)) as [(p & A & W)|[F _]]; [left|right; exact F].
    destruct (forallb (fun o => Nat.eqb o (bl_order l0)) orders) eqn:K; [|rewrite W; exact A].
    rewrite (max_constant (bl_order l0)); [|discriminate|intros o I; rewrite forallb_forall in K; apply Nat.eqb_eq, K, I].
    destruct (order_at_covered _ _ _ _ A) as (k & l & I & _ & O). rewrite forallb_forall in K. specialize (K p). rewrite Nat.eqb_eq in K. rewrite <- K; [exact A|].
    rewrite <- O. unfold orders. apply (in_map (fun pl : string * blayer => bl_order (snd pl)) all (k, l)), I. }
  set (val := if forallb _ _ then _ else _) in *.
  destruct (in_region name (join_bar (dkeys all)) e) eqn:R.
  - assert (N : ~ free name all e).
    { apply (in_region_joined name (dkeys all) e NE) in R. destruct R as (k & I & C). unfold dkeys in I. apply in_map_iff in I. destruct I as ([k' l'] & E & I). cbn in E. subst k'. intros F. exact (F k l' I C). }
    destruct V as [V|V]; [|contradiction]. split; [split; [discriminate|contradiction]|]. intros p. split.
    + intros E. injection E as <-. exact V.
    + intros A. f_equal. exact (order_at_unique _ _ _ _ _ V A).
  - assert (F : free name all e).
    { intros k l I C. assert (T : in_region name (join_bar (dkeys all)) e = true) by (apply in_region_joined; [exact NE|]; exists k; split; [apply (in_map fst all (k, l)), I|exact C]). congruence. }
    split; [split; [intros _; exact F|reflexivity]|]. intros p. split; [discriminate|]. intros A. destruct (order_at_covered _ _ _ _ A) as (k & l & I & C & _). destruct (F k l I C).
Qed.

(** Right hand sides. *)
Lemma buffer_rhs_sum cell name bt layers g : buffer_rhs cell name bt layers = Ok g -> forall x, layer_sum cell name x layers (g x).
Proof.
  revert g. induction layers as [|[p l] layers IH]; intros g H x; cbn [buffer_rhs] in H; [injection H as <-; constructor|].
  destruct (subclass (bl_class l) bt); [|discriminate]. cbn [negb] in H. destruct (bl_function l) as [f|] eqn:F; [|discriminate].
  destruct (buffer_rhs cell name bt layers) as [g'|] eqn:E; [|discriminate]. cbn [bind] in H. injection H as <-. destruct (in_region name p (cell x)) eqn:R.
  - apply sum_in; [apply in_region_covered, R|exact F|apply IH; reflexivity].
  - rewrite Rplus_0_l. apply sum_out; [apply in_region_free, R|apply IH; reflexivity].
Qed.

Lemma layer_sum_unique cell name x layers a b : layer_sum cell name x layers a -> layer_sum cell name x layers b -> a = b.
Proof.
  intros A. revert b. induction A as [|p l rest f s C F A IH|p l rest s C A IH]; intros b B; inversion B; subst; try contradiction.
  - reflexivity.
  - match goal with H : bl_function l = Some ?f0 |- _ => assert (f0 = f) by congruence; subst f0 end. f_equal. apply IH. assumption.
  - apply IH. assumption.
Qed.

Lemma layer_sum_free cell name x layers s : layer_sum cell name x layers s -> free name layers (cell x) -> s = 0.
Proof.
  intros A. induction A as [|p l rest f s C F A IH|p l rest s C A IH]; intros N.
  - reflexivity.
  - destruct (N p l (or_introl eq_refl) C).
  - apply IH. intros k l' I. exact (N k l' (or_intror I)).
Qed.

Lemma buffer_rhs_ok cell name bt layers :
  (exists g, buffer_rhs cell name bt layers = Ok g) <-> (forall p l, In (p, l) layers -> isa (bl_class l) bt /\ bl_function l <> None).
Proof.
  induction layers as [|[p l] layers IH]; cbn [buffer_rhs]; [split; [intros _ p l []|intros _; eexists; reflexivity]|].
  destruct (subclass (bl_class l) bt) eqn:S0; cbn [negb].
  2:{ split; [intros [g H]; discriminate|]. intros H. destruct (H p l (or_introl eq_refl)) as [I _]. apply subclass_spec in I. congruence. }
  apply subclass_spec in S0. destruct (bl_function l) as [f|] eqn:F.
  2:{ split; [intros [g H]; discriminate|]. intros H. destruct (H p l (or_introl eq_refl)) as [_ N]. congruence. }
  split.
  - intros [g H]. destruct (buffer_rhs cell name bt layers) as [g'|] eqn:E; [|discriminate]. destruct IH as [IH _]. specialize (IH (ex_intro _ g' eq_refl)).
    intros p' l' [X|X]; [injection X as <- <-; split; [exact S0|congruence]|exact (IH p' l' X)].
  - intros H. destruct IH as [_ IH]. destruct (IH (fun p' l' I => H p' l' (or_intror I))) as [g E]. rewrite E. cbn [bind]. eexists. reflexivity.
Qed.
