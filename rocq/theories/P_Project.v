(** C70: the functions of buffer layers. *)
From Coq Require Import Reals Lra String List Arith Bool Lia.
From Verif Require Import Base Dict M_Bla M_Flow M_Formulation M_Conditions S_Conditions L_Conditions M_Weak S_Weak L_Weak M_Project S_Project L_Project.
Import ListNotations.
Open Scope R_scope.
Open Scope list_scope.

(** Lemmas. *)
Lemma distance_pos q f g : (forall w x, In (w, x) q -> 0 < w) -> 0 <= distance q f g.
Proof.
  unfold distance. intros P. induction q as [|[w x] q IH]; cbn [weighted]; [apply Rle_refl|].
  apply Rplus_le_le_0_compat; [apply Rmult_le_pos; [apply Rlt_le, (P w x); left; reflexivity|apply pow2_ge_0]|apply IH; intros w' x' I; apply (P w' x'); right; exact I].
Qed.

Lemma distance_zero q f g : (forall w x, In (w, x) q -> 0 < w) -> distance q f g = 0 -> forall w x, In (w, x) q -> f x = g x.
Proof.
  intros P D w x I. unfold distance in D. rewrite (weighted_ext q _ (fun x => (f x - g x) * (f x - g x))) in D by (intros; ring).
  pose proof (square_zero q (fun x => f x - g x) P D w x I) as E. cbn beta in E. lra.
Qed.

Lemma weights_pos q : (forall w x, In (w, x) q -> 0 < w) -> q <> [] -> 0 < weighted q (fun _ => 1).
Proof.
  intros P N. destruct q as [|[w x] q]; [contradiction|]. cbn [weighted].
  assert (A : forall r, (forall w x, In (w, x) r -> 0 < w) -> 0 <= weighted r (fun _ => 1)).
  { induction r as [|[w' x'] r IH]; cbn [weighted]; intros Q; [apply Rle_refl|]. pose proof (Q w' x' (or_introl eq_refl)). pose proof (IH (fun a b I => Q a b (or_intror I))). lra. }
  pose proof (P w x (or_introl eq_refl)). pose proof (A q (fun a b I => P a b (or_intror I))). lra.
Qed.

Lemma weighted_between q f a b : (forall w x, In (w, x) q -> 0 < w) -> (forall w x, In (w, x) q -> a <= f x <= b) ->
  a * weighted q (fun _ => 1) <= weighted q f <= b * weighted q (fun _ => 1).
Proof.
  intros P B. induction q as [|[w x] q IH]; cbn [weighted]; [lra|].
  pose proof (P w x (or_introl eq_refl)) as W. pose proof (B w x (or_introl eq_refl)) as [B1 B2].
  pose proof (IH (fun a b I => P a b (or_intror I)) (fun a b I => B a b (or_intror I))) as [I1 I2].
  pose proof (Rmult_le_compat_l w _ _ (Rlt_le _ _ W) B1). pose proof (Rmult_le_compat_l w _ _ (Rlt_le _ _ W) B2). split; lra.
Qed.

Lemma mean_between q f a b : (forall w x, In (w, x) q -> 0 < w) -> q <> [] -> (forall w x, In (w, x) q -> a <= f x <= b) -> a <= mean q f <= b.
Proof.
  intros P N B. pose proof (weights_pos q P N) as W. destruct (weighted_between q f a b P B) as [L U]. unfold mean. split.
  - apply Rmult_le_reg_r with (weighted q (fun _ => 1)); [exact W|]. unfold Rdiv. rewrite Rmult_assoc, Rinv_l by lra. lra.
  - apply Rmult_le_reg_r with (weighted q (fun _ => 1)); [exact W|]. unfold Rdiv. rewrite Rmult_assoc, Rinv_l by lra. lra.
Qed.

Lemma isa_trans a b c : isa a b -> isa b c -> isa a c.
Proof. intros A B. induction A as [|a p b E A IH]; [exact B|]. apply isa_step with p; [exact E|exact (IH B)]. Qed.

Lemma agree_everywhere cell shape (Poly : polynomials cell shape) q e p f g : unisolvent cell shape q e p -> shape e p f -> shape e p g ->
  (forall w x, In (w, x) (inside cell e q) -> f x = g x) -> forall x, cell x = e -> f x = g x.
Proof.
  intros Un F G H x E. assert (Z : f x + -1 * g x = 0); [|lra].
  apply (Un (fun x => f x + -1 * g x)); [apply (shape_plus cell shape Poly); [exact F|apply (shape_scale cell shape Poly), G]| |exact E].
  intros w y I. rewrite (H w y I). ring.
Qed.

Section Layers.
Variable cell : nat -> nat.
Variable shape : nat -> nat -> (nat -> R) -> Prop.
Variable name : nat -> string.
Variable continuous : nat -> (nat -> bool) -> (nat -> R) -> Prop.
Hypothesis Poly : polynomials cell shape.

Lemma buffer_sponge bt layers blf lf y : isa bt "SpongeLayer" -> buffer_system cell shape name continuous bt layers blf lf = Ok y ->
  exists order f, sponge_space name layers = Ok order /\ (forall x, layer_sum cell name x layers (f x)) /\ y = mk_system (cell_space cell shape order) blf lf f.
Proof.
  intros I H. unfold buffer_system in H. apply subclass_spec in I. rewrite I in H. destruct (negb (subclass bt "Buffer")); [discriminate|].
  destruct (sponge_space name layers) as [order|] eqn:E; [|discriminate]. cbn [bind] in H.
  destruct (buffer_rhs cell name bt layers) as [f|] eqn:F; [|discriminate]. cbn [bind] in H. injection H as <-.
  exists order, f. split; [reflexivity|]. split; [exact (buffer_rhs_sum cell name bt layers f F)|reflexivity].
Qed.

(** Quadrature as the code chooses it. *)
Definition resolved (layers : dict blayer) (blf lf : rule) : Prop :=
  forall e p, order_at name layers e p -> resolves cell shape blf lf e p.

(** Where there is no layer, the function is zero.  On an element of a layer it is a polynomial of the order of the layer
    (the last one if there are several), and no such polynomial is closer to the sum of the given functions;
    its integral over the element is that of the sum. *)
Theorem c70_function : forall bt layers blf lf y u profile, isa bt "SpongeLayer" -> buffer_system cell shape name continuous bt layers blf lf = Ok y -> solution y u ->
  (forall x, layer_sum cell name x layers (profile x)) -> resolved layers blf lf ->
  (forall x, free name layers (cell x) -> u x = 0) /\
  (forall e p, order_at name layers e p ->
     shape e p u /\ weighted (inside cell e blf) u = weighted (inside cell e lf) profile /\
     forall g, shape e p g -> distance (inside cell e lf) profile u <= distance (inside cell e lf) profile g /\
       (distance (inside cell e lf) profile g = distance (inside cell e lf) profile u -> forall x, cell x = e -> g x = u x)).
Proof.
  intros bt layers blf lf y u profile I H Sol Pr Re. destruct (buffer_sponge bt layers blf lf y I H) as (order & f & So & Lf & ->).
  assert (Ef : forall x, f x = profile x) by (intros x; exact (layer_sum_unique cell name x layers _ _ (Lf x) (Pr x))).
  pose proof (sponge_space_spec name layers order So) as Sp.
  assert (Ex : forall e p, order e = Some p -> exact cell shape blf lf e p) by (intros e p O; apply Re, Sp, O).
  split.
  - intros x F. apply (solution_outside cell shape order blf lf f u Sol). apply Sp, F.
  - intros e p O. destruct (Re e p O) as (_ & [Pos _] & Un). apply Sp in O. split; [exact (solution_shape cell shape order blf lf f u Sol e p O)|]. split.
    + rewrite (solution_content cell shape Poly order blf lf f u Sol e p O). apply weighted_ext. intros; apply Ef.
    + intros g G. pose proof (solution_best cell shape Poly order blf lf f u Sol Ex e p g O G) as B.
      assert (D : distance (inside cell e lf) profile g = distance (inside cell e lf) profile u + distance (inside cell e lf) u g).
      { unfold distance. transitivity (weighted (inside cell e lf) (fun x => (f x - g x) * (f x - g x))); [apply weighted_ext; intros; rewrite Ef; ring|].
        rewrite B. f_equal; apply weighted_ext; intros; rewrite ?Ef; ring. }
      pose proof (distance_pos (inside cell e lf) u g Pos) as Z. split; [lra|]. intros Q x X.
      apply (agree_everywhere cell shape Poly lf e p g u Un G (solution_shape cell shape order blf lf f u Sol e p O)); [|exact X].
      intros w' x' X'. symmetry. apply (distance_zero (inside cell e lf) u g Pos) with w'; [lra|exact X'].
Qed.

(** A function that is such a polynomial is reproduced. *)
Theorem c70_exact : forall bt layers blf lf y u profile e p, isa bt "SpongeLayer" -> buffer_system cell shape name continuous bt layers blf lf = Ok y -> solution y u ->
  (forall x, layer_sum cell name x layers (profile x)) -> resolved layers blf lf ->
  order_at name layers e p -> shape e p profile -> forall x, cell x = e -> u x = profile x.
Proof.
  intros bt layers blf lf y u profile e p I H Sol Pr Re O Sh x X.
  destruct (c70_function bt layers blf lf y u profile I H Sol Pr Re) as [_ C]. destruct (C e p O) as (_ & _ & B). destruct (B profile Sh) as [B1 B2].
  destruct (Re e p O) as (_ & [Pos _] & _). pose proof (distance_pos (inside cell e lf) profile u Pos) as Z.
  assert (Z' : distance (inside cell e lf) profile profile = 0) by (unfold distance; apply weighted_zero; intros; ring).
  symmetry. apply B2; [lra|exact X].
Qed.

(** The layers determine the function: a second set-up that gives the same sums and orders gives the same function. *)
Theorem c70_unique : forall bt bt' layers layers' blf blf' lf y y' u u' profile,
  isa bt "SpongeLayer" -> buffer_system cell shape name continuous bt layers blf lf = Ok y -> solution y u ->
  isa bt' "SpongeLayer" -> buffer_system cell shape name continuous bt' layers' blf' lf = Ok y' -> solution y' u' ->
  (forall x, layer_sum cell name x layers (profile x)) -> (forall x, layer_sum cell name x layers' (profile x)) ->
  (forall e p, order_at name layers e p <-> order_at name layers' e p) -> resolved layers blf lf -> resolved layers' blf' lf ->
  forall x, u x = u' x.
Proof.
  intros bt bt' layers layers' blf blf' lf y y' u u' profile I H Sol I' H' Sol' Pr Pr' Or Re Re' x.
  destruct (c70_function bt layers blf lf y u profile I H Sol Pr Re) as [N C]. destruct (c70_function bt' layers' blf' lf y' u' profile I' H' Sol' Pr' Re') as [N' C'].
  assert (A : forall ls e, (exists p, order_at name ls e p) \/ free name ls e) by (intros ls e; destruct (fold_last name e ls 0) as [(p & A & _)|[F _]]; [left; exists p; exact A|right; exact F]).
  destruct (A layers (cell x)) as [[p O]|F].
  - destruct (C (cell x) p O) as (S1 & _ & B). destruct (C' (cell x) p (proj1 (Or _ _) O)) as (S2 & _ & B').
    destruct (B u' S2) as [B1 B2]. destruct (B' u S1) as [B3 _]. symmetry. apply (B2 ltac:(lra)). reflexivity.
  - rewrite (N x F). symmetry. apply N'. destruct (A layers' (cell x)) as [[p O]|F']; [|exact F']. apply Or in O. destruct (order_at_covered _ _ _ _ O) as (k & l & J & K & _). destruct (F k l J K).
Qed.

(** A higher order does not lead further away from the given functions. *)
Theorem c70_order : forall bt layers layers' blf blf' lf y y' u u' profile e p p',
  isa bt "SpongeLayer" -> buffer_system cell shape name continuous bt layers blf lf = Ok y -> solution y u ->
  buffer_system cell shape name continuous bt layers' blf' lf = Ok y' -> solution y' u' ->
  (forall x, layer_sum cell name x layers (profile x)) -> (forall x, layer_sum cell name x layers' (profile x)) ->
  resolved layers blf lf -> resolved layers' blf' lf -> order_at name layers e p -> order_at name layers' e p' -> (p <= p')%nat ->
  distance (inside cell e lf) profile u' <= distance (inside cell e lf) profile u.
Proof.
  intros bt layers layers' blf blf' lf y y' u u' profile e p p' I H Sol H' Sol' Pr Pr' Re Re' O O' L.
  destruct (c70_function bt layers blf lf y u profile I H Sol Pr Re) as [_ C]. destruct (c70_function bt layers' blf' lf y' u' profile I H' Sol' Pr' Re') as [_ C'].
  destruct (C e p O) as (S1 & _ & _). destruct (C' e p' O') as (_ & _ & B). apply B. apply (shape_order cell shape Poly e p p' u L S1).
Qed.

(** With order 0, the default, it is the mean value of the sum on every element, and so it does not leave the bounds of the sum. *)
Theorem c70_bounds : forall bt layers blf lf y u profile e, isa bt "SpongeLayer" -> buffer_system cell shape name continuous bt layers blf lf = Ok y -> solution y u ->
  (forall x, layer_sum cell name x layers (profile x)) -> resolved layers blf lf -> order_at name layers e 0%nat ->
  (forall x, cell x = e -> u x = mean (inside cell e lf) profile) /\
  (forall a b, (forall w x, In (w, x) (inside cell e lf) -> a <= profile x <= b) -> forall x, cell x = e -> a <= u x <= b).
Proof.
  intros bt layers blf lf y u profile e I H Sol Pr Re O. destruct (buffer_sponge bt layers blf lf y I H) as (order & f & So & Lf & ->).
  assert (Ef : forall x, f x = profile x) by (intros x; exact (layer_sum_unique cell name x layers _ _ (Lf x) (Pr x))).
  pose proof (sponge_space_spec name layers order So) as Sp. destruct (Re e 0%nat O) as (_ & [Pos NE] & _).
  assert (M : forall x, cell x = e -> u x = mean (inside cell e lf) profile).
  { intros x E. rewrite (solution_mean cell shape Poly order blf lf f u Sol ltac:(intros e' p' O'; apply Re, Sp, O') e (proj2 (proj2 (Sp e) 0%nat) O) (weights_pos _ Pos NE) x E).
    unfold mean. f_equal. apply weighted_ext. intros; apply Ef. }
  split; [exact M|]. intros a b B x E. rewrite (M x E). exact (mean_between _ profile a b Pos NE B).
Qed.

(** Which calls succeed, and how the others fail. *)
Theorem c70_raises : forall bt layers blf lf,
  ((exists y, buffer_system cell shape name continuous bt layers blf lf = Ok y) <->
   (isa bt "SpongeLayer" \/ isa bt "GridDeformation") /\ layers <> [] /\ forall p l, In (p, l) layers -> isa (bl_class l) bt /\ bl_function l <> None) /\
  (~ isa bt "Buffer" -> buffer_system cell shape name continuous bt layers blf lf = Err TypeError) /\
  (buffer_system cell shape name continuous "Buffer" layers blf lf = Err NotImplementedError) /\
  ((isa bt "SpongeLayer" \/ isa bt "GridDeformation") -> layers = [] -> buffer_system cell shape name continuous bt layers blf lf = Err ValueError) /\
  ((isa bt "SpongeLayer" \/ isa bt "GridDeformation") -> forall before key l after, layers = before ++ (key, l) :: after ->
     (forall p l', In (p, l') before -> isa (bl_class l') bt /\ bl_function l' <> None) ->
     (~ isa (bl_class l) bt -> buffer_system cell shape name continuous bt layers blf lf = Err TypeError) /\
     (isa (bl_class l) bt -> bl_function l = None -> buffer_system cell shape name continuous bt layers blf lf = Err ValueError)).
Proof.
  intros bt layers blf lf.
  assert (Sp : forall ls, ls <> [] -> exists sp, (if subclass bt "SpongeLayer" then let* order := sponge_space name ls in Ok (cell_space cell shape order)
                   else if subclass bt "GridDeformation" then deformation_space name continuous ls
                   else Err NotImplementedError) = (if subclass bt "SpongeLayer" || subclass bt "GridDeformation" then Ok sp else Err NotImplementedError)).
  { intros [|[k l] ls] N; [contradiction|]. destruct (subclass bt "SpongeLayer"); [eexists; reflexivity|]. destruct (subclass bt "GridDeformation"); [eexists; reflexivity|exists (fun _ => True); reflexivity]. }
  assert (Nb : forall a b, ~ isa a b -> subclass a b = false) by (intros a b N; destruct (subclass a b) eqn:E; [apply subclass_spec in E; contradiction|reflexivity]).
  assert (Or : (isa bt "SpongeLayer" \/ isa bt "GridDeformation") <-> subclass bt "SpongeLayer" || subclass bt "GridDeformation" = true).
  { rewrite orb_true_iff, !subclass_spec. reflexivity. }
  assert (Bu : (isa bt "SpongeLayer" \/ isa bt "GridDeformation") -> isa bt "Buffer").
  { intros [K|K]; apply (isa_trans _ _ _ K); (apply isa_step with "Buffer"%string; [reflexivity|apply isa_refl]). }
  split; [|split; [|split; [|split]]].
  - split.
    + intros [y H]. unfold buffer_system in H. destruct (subclass bt "Buffer") eqn:B; [|discriminate]. cbn [negb] in H. apply subclass_spec in B.
      assert (N : layers <> []) by (intros ->; destruct (subclass bt "SpongeLayer"); [discriminate|]; destruct (subclass bt "GridDeformation"); discriminate).
      destruct (Sp layers N) as [sp E]. rewrite E in H. destruct (subclass bt "SpongeLayer" || subclass bt "GridDeformation") eqn:K; [|discriminate].
      split; [apply Or; reflexivity|]. split; [exact N|]. cbn [bind] in H.
      destruct (buffer_rhs cell name bt layers) as [g|] eqn:G; [|discriminate]. apply (buffer_rhs_ok cell name bt layers). exists g. exact G.
    + intros (K & N & L). pose proof (Bu K) as B. unfold buffer_system. apply subclass_spec in B. rewrite B. cbn [negb]. destruct (Sp layers N) as [sp E]. rewrite E. apply Or in K. rewrite K. cbn [bind].
      apply (buffer_rhs_ok cell name bt layers) in L. destruct L as [g G]. rewrite G. eexists. reflexivity.
  - intros N. unfold buffer_system. rewrite (Nb _ _ N). reflexivity.
  - reflexivity.
  - intros K ->. pose proof (Bu K) as B. unfold buffer_system. apply subclass_spec in B. rewrite B. cbn [negb]. apply Or in K. apply orb_true_iff in K. destruct (subclass bt "SpongeLayer"); [reflexivity|]. destruct K as [K|K]; [discriminate|]. rewrite K. reflexivity.
  - intros K before key l after -> Be. pose proof (Bu K) as B.
    assert (R : forall r, (exists e, buffer_rhs cell name bt ((key, l) :: after) = Err e /\ r = @Err system e) -> buffer_system cell shape name continuous bt (before ++ (key, l) :: after) blf lf = r).
    { intros r (e & E & ->). unfold buffer_system. apply subclass_spec in B. rewrite B. cbn [negb]. destruct (Sp (before ++ (key, l) :: after)) as [sp Q]; [destruct before; discriminate|]. rewrite Q. apply Or in K. rewrite K. cbn [bind].
      assert (F : buffer_rhs cell name bt (before ++ (key, l) :: after) = Err e); [|rewrite F; reflexivity].
      clear Q Sp. induction before as [|[p l'] before IH]; [exact E|]. cbn [app buffer_rhs]. destruct (Be p l' (or_introl eq_refl)) as [I F]. apply subclass_spec in I. rewrite I. cbn [negb].
      destruct (bl_function l') as [f|]; [|congruence]. rewrite (IH (fun p0 l0 I0 => Be p0 l0 (or_intror I0))). reflexivity. }
    split.
    + intros N. apply R. exists TypeError. split; [|reflexivity]. cbn [buffer_rhs]. rewrite (Nb _ _ N). reflexivity.
    + intros I F. apply R. exists ValueError. split; [|reflexivity]. cbn [buffer_rhs]. apply subclass_spec in I. rewrite I. cbn [negb]. rewrite F. reflexivity.
Qed.
End Layers.
Print Assumptions c70_function.
Print Assumptions c70_exact.
Print Assumptions c70_unique.
Print Assumptions c70_order.
Print Assumptions c70_bounds.
Print Assumptions c70_raises.

(** ** A line of elements with three points each: left end, middle and right end; Simpson's rule on the first two. *)
Definition third (x : nat) : nat := (x / 3)%nat.
Definition three_points (e p : nat) (f : nat -> R) : Prop :=
  match p with
  | 0%nat => f (3 * e)%nat = f (3 * e + 1)%nat /\ f (3 * e + 1)%nat = f (3 * e + 2)%nat
  | 1%nat => f (3 * e)%nat + f (3 * e + 2)%nat = 2 * f (3 * e + 1)%nat
  | _ => True
  end.
Definition simpson : rule := [(1 / 6, 0%nat); (4 / 6, 1%nat); (1 / 6, 2%nat); (1 / 6, 3%nat); (4 / 6, 4%nat); (1 / 6, 5%nat)].
Definition second_layer (e : nat) : string := if Nat.eqb e 1 then "layer" else "inner".

Lemma third_of e i : (i < 3)%nat -> third (3 * e + i)%nat = e.
Proof. intros I. unfold third. symmetry. apply (Nat.div_unique (3 * e + i) 3 e i I). reflexivity. Qed.

Lemma third_points e x : third x = e -> x = (3 * e)%nat \/ x = (3 * e + 1)%nat \/ x = (3 * e + 2)%nat.
Proof. unfold third. intros H. pose proof (Nat.div_mod x 3 ltac:(lia)) as D. pose proof (Nat.mod_upper_bound x 3 ltac:(lia)) as M. rewrite H in D. lia. Qed.

Lemma three_polynomials : polynomials third three_points.
Proof.
  assert (Z : forall e, third (3 * e)%nat = e) by (intros e; rewrite <- (Nat.add_0_r (3 * e)); apply third_of; lia).
  split.
  - intros e p f g H. destruct p as [|[|p]]; cbn [three_points]; [| |auto]; rewrite <- !H by (first [apply Z|apply third_of; lia]); auto.
  - intros e p f g. destruct p as [|[|p]]; cbn [three_points]; [intros [A B] [C D]; split; lra|lra|auto].
  - intros e p c f. destruct p as [|[|p]]; cbn [three_points]; [intros [A B]; rewrite A, B; split; reflexivity|intros A|auto]. rewrite <- Rmult_plus_distr_l, A. ring.
  - intros e p c. destruct p as [|[|p]]; cbn [three_points]; [split; reflexivity|ring|auto].
  - intros e p p' f L. destruct p as [|[|p]], p' as [|[|p']]; cbn [three_points]; try lia; try tauto. intros [A B]. lra.
  - intros e f [A B]. exists (f (3 * e)%nat). intros x H. destruct (third_points e x H) as [-> | [-> | ->]]; congruence.
Qed.

Lemma layer_covered e : covered_by second_layer e "layer" <-> e = 1%nat.
Proof.
  rewrite <- in_region_covered. unfold in_region, second_layer. destruct (Nat.eqb_spec e 1) as [->|N]; [split; reflexivity|]. split; [intros H; vm_compute in H; discriminate|contradiction].
Qed.

(** One layer on the second element whose strength grows quadratically from 0 to 1. *)
Definition quadratic (x : nat) : R := match x with 4%nat => 1 / 4 | 5%nat => 1 | _ => 0 end.
Definition growing (p : nat) : dict blayer := [("layer"%string, mk_blayer "SpongeLayer" p (Some quadratic))].

Lemma growing_order p e q : order_at second_layer (growing p) e q <-> e = 1%nat /\ q = p.
Proof.
  split.
  - intros H. destruct (order_at_covered _ _ _ _ H) as (k & l & [I|[]] & C & O). injection I as <- <-. apply layer_covered in C. cbn in O. auto.
  - intros [-> ->]. exists [], "layer"%string, (mk_blayer "SpongeLayer" p (Some quadratic)), []. split; [reflexivity|]. split; [apply layer_covered; reflexivity|]. split; [intros k l []|reflexivity].
Qed.

Lemma growing_sum p x : layer_sum third second_layer x (growing p) (quadratic x).
Proof.
  unfold growing. destruct (Nat.eq_dec (third x) 1) as [E|N].
  - rewrite <- (Rplus_0_r (quadratic x)). apply sum_in; [apply layer_covered, E|reflexivity|constructor].
  - replace (quadratic x) with 0; [apply sum_out; [rewrite layer_covered; exact N|constructor]|].
    do 6 (destruct x as [|x]; [try reflexivity; exfalso; apply N; reflexivity|]). reflexivity.
Qed.

Lemma growing_resolved p : resolved third three_points second_layer (growing p) simpson simpson.
Proof.
  intros e q H. apply growing_order in H. destruct H as [-> ->]. split; [intros f g _ _; reflexivity|]. split; [split|].
  - intros w x I. apply in_inside in I. destruct I as [I _]. cbn in I. repeat destruct I as [I|I]; try contradiction; injection I as <- _; lra.
  - discriminate.
  - intros f _ Z x E. destruct (third_points 1 x E) as [-> | [-> | ->]]; [apply (Z (1 / 6) 3%nat)|apply (Z (4 / 6) 4%nat)|apply (Z (1 / 6) 5%nat)]; cbn; auto.
Qed.

(** Its function is linear for order 1, the mean value for order 0. *)
Definition linear_part (x : nat) : R := match x with 3%nat => -1 / 6 | 4%nat => 1 / 3 | 5%nat => 5 / 6 | _ => 0 end.
Definition mean_part (x : nat) : R := match x with 3%nat => 1 / 3 | 4%nat => 1 / 3 | 5%nat => 1 / 3 | _ => 0 end.

Lemma growing_solution p u : (p = 0%nat /\ u = mean_part \/ p = 1%nat /\ u = linear_part) ->
  exists y, buffer_system third three_points second_layer (fun _ _ _ => True) "SpongeLayer" (growing p) simpson simpson = Ok y /\ solution y u.
Proof.
  intros H. destruct (proj2 (proj1 (c70_raises third three_points second_layer (fun _ _ _ => True) "SpongeLayer" (growing p) simpson simpson))) as [y E].
  { split; [left; apply isa_refl|]. split; [discriminate|]. intros q l [I|[]]. injection I as <- <-. split; [apply isa_refl|discriminate]. }
  exists y. split; [exact E|]. destruct (buffer_sponge third three_points second_layer (fun _ _ _ => True) "SpongeLayer" (growing p) simpson simpson y (isa_refl _) E) as (order & f & So & Lf & ->).
  pose proof (sponge_space_spec second_layer (growing p) order So) as Sp.
  assert (O1 : order 1%nat = Some p) by (apply Sp, growing_order; auto).
  assert (On : forall e, e <> 1%nat -> order e = None) by (intros e N; apply Sp; intros k l [I|[]]; injection I as <- <-; rewrite layer_covered; exact N).
  assert (Ef : forall x, f x = quadratic x) by (intros x; exact (layer_sum_unique _ _ x (growing p) _ _ (Lf x) (growing_sum p x))).
  assert (U0 : forall x, third x <> 1%nat -> u x = 0).
  { intros x N. assert (Q : mean_part x = 0 /\ linear_part x = 0); [|destruct H as [[_ ->]|[_ ->]]; apply Q].
    do 6 (destruct x as [|x]; [try (split; reflexivity); exfalso; apply N; reflexivity|]). split; reflexivity. }
  split.
  - intros e. cbn [y_space]. destruct (Nat.eq_dec e 1) as [->|N].
    + rewrite O1. destruct H as [[-> ->]|[-> ->]]; cbn; [split; reflexivity|lra].
    + rewrite (On e N). intros x E'. apply U0. congruence.
  - intros v V. cbn [y_space y_blf y_lf y_rhs] in *. pose proof (V 1%nat) as V1. rewrite O1 in V1.
    assert (V0 : forall x, third x = 0%nat -> v x = 0) by (intros x E'; specialize (V 0%nat); rewrite (On 0%nat ltac:(lia)) in V; exact (V x E')).
    unfold simpson. cbn [quad fold_right fst snd]. rewrite !Ef. rewrite (V0 0%nat), (V0 1%nat), (V0 2%nat) by reflexivity.
    destruct H as [[-> ->]|[-> ->]]; cbn [three_points] in V1; change (3 * 1)%nat with 3%nat in V1; change (3 + 1)%nat with 4%nat in V1; change (3 + 2)%nat with 5%nat in V1; cbn [mean_part linear_part quadratic].
    + destruct V1 as [A B]. rewrite <- B, <- A. lra.
    + assert (A : v 5%nat = 2 * v 4%nat - v 3%nat) by lra. rewrite A. lra.
Qed.

(** With order 1 the function may be negative although the given function is between 0 and 1: the layer then amplifies. *)
Theorem c70_bounds_refuted : exists layers y u,
  buffer_system third three_points second_layer (fun _ _ _ => True) "SpongeLayer" layers simpson simpson = Ok y /\ solution y u /\
  (forall x, layer_sum third second_layer x layers (quadratic x)) /\ resolved third three_points second_layer layers simpson simpson /\
  (forall x, 0 <= quadratic x <= 1) /\ order_at second_layer layers 1 1 /\ In (1 / 6, 3%nat) (inside third 1 simpson) /\ u 3%nat < 0.
Proof.
  destruct (growing_solution 1%nat linear_part (or_intror (conj eq_refl eq_refl))) as (y & E & Sol).
  exists (growing 1), y, linear_part. split; [exact E|]. split; [exact Sol|]. split; [apply growing_sum|]. split; [apply growing_resolved|]. split; [|split; [apply growing_order; auto|split; [left; reflexivity|cbn; lra]]].
  intros x. do 6 (destruct x as [|x]; [cbn; lra|]). cbn. lra.
Qed.
Print Assumptions c70_bounds_refuted.

(** Example: the same layer with the default order; mean value 1/3, and a second layer on the same element would add. *)
Example c70_example :
  (exists y, buffer_system third three_points second_layer (fun _ _ _ => True) "SpongeLayer" (growing 0) simpson simpson = Ok y /\ solution y mean_part) /\
  polynomials third three_points /\ resolved third three_points second_layer (growing 0) simpson simpson /\ mean (inside third 1 simpson) quadratic = 1 / 3 /\
  distance (inside third 1 simpson) quadratic linear_part < distance (inside third 1 simpson) quadratic mean_part /\
  layer_sum third second_layer 5 (growing 0 ++ growing 1) 2 /\ order_at second_layer (growing 0 ++ growing 1) 1 1 /\
  buffer_system third three_points second_layer (fun _ _ _ => True) "PSpongeLayer" (growing 0) simpson simpson = Err TypeError.
Proof.
  split; [exact (growing_solution 0%nat mean_part (or_introl (conj eq_refl eq_refl)))|]. split; [exact three_polynomials|]. split; [apply growing_resolved|].
  assert (I : inside third 1 simpson = [(1 / 6, 3%nat); (4 / 6, 4%nat); (1 / 6, 5%nat)]) by reflexivity. rewrite I.
  split; [unfold mean; cbn [weighted quadratic]; field|]. split; [unfold distance; cbn [weighted quadratic linear_part mean_part]; lra|]. split; [|split; [|reflexivity]].
  - replace 2 with (quadratic 5 + (quadratic 5 + 0)) by (cbn; lra). apply sum_in; [apply layer_covered; reflexivity|reflexivity|]. apply sum_in; [apply layer_covered; reflexivity|reflexivity|constructor].
  - exists (growing 0), "layer"%string, (mk_blayer "SpongeLayer" 1 (Some quadratic)), []. split; [reflexivity|]. split; [apply layer_covered; reflexivity|]. split; [intros k l []|reflexivity].
Qed.
