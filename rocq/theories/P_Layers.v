(** Properties C33-C35 (sponge layer orders, order reduction, grid deformations). *)
From Coq Require Import ZArith QArith Qround List Bool Arith Lia.
From Verif Require Import Base M_Layers.
Import ListNotations.

(** * C33 *)

(** Admissible orders. *)
Definition admissible (s : psponge) : Prop :=
  (forall h, high_order s = Some h -> (0 <= h)%Z) /\ (forall l, low_order s = Some l -> (0 <= l)%Z) /\
  (forall h l, high_order s = Some h -> low_order s = Some l -> (l <= h)%Z).

Lemma floor_ge : forall z q, (inject_Z z <= q)%Q -> (z <= Qfloor q)%Z.
Proof. intros z q H. rewrite <- (Qfloor_Z z). apply Qfloor_resp_le, H. Qed.
Lemma floor_le : forall z q, (q <= inject_Z z)%Q -> (Qfloor q <= z)%Z.
Proof. intros z q H. rewrite <- (Qfloor_Z z). apply Qfloor_resp_le, H. Qed.

Lemma not_negative : forall q, Qlt_bool q 0 = false -> (0 <= Qfloor q)%Z.
Proof. intros q H. unfold Qlt_bool in H. apply negb_false_iff, Qle_bool_iff in H. apply (floor_ge 0), H. Qed.

Lemma set_high_admissible : forall s v, admissible s -> admissible (fst (set_high s v)).
Proof.
  intros s v (A & B & C). destruct v as [q|]; [|split; [|split]; assumption]. unfold set_high.
  destruct (Qlt_bool q 0) eqn:E; [split; [|split]; assumption|]. apply not_negative in E.
  destruct (negb (Qle_bool _ q)) eqn:F; [split; [|split]; assumption|]. apply negb_false_iff, Qle_bool_iff in F.
  cbn. split; [intros h H; injection H as <-; exact E|]. split; [exact B|].
  intros h l H L. injection H as <-. cbn in L. rewrite L in F. apply floor_ge, F.
Qed.

Lemma set_low_admissible : forall s v, admissible s -> admissible (fst (set_low s v)).
Proof.
  intros s v (A & B & C). destruct v as [q|]; [|split; [|split]; assumption]. unfold set_low.
  destruct (Qlt_bool q 0) eqn:E; [split; [|split]; assumption|]. apply not_negative in E.
  destruct (high_order s) as [h|] eqn:H; [|split; [|split]; cbn; rewrite ?H; assumption].
  destruct (negb (Qle_bool q _)) eqn:F; [split; [|split]; cbn; rewrite ?H; assumption|]. apply negb_false_iff, Qle_bool_iff in F.
  cbn. split; [exact A|]. split; [intros l L; injection L as <-; exact E|].
  intros h' l H' L. injection H' as <-. injection L as <-. apply floor_le, F.
Qed.

(** After any history of assignments, accepted or rejected, deletions and resets. *)
Theorem c33_orders_admissible : forall ops, admissible (layer_run clear_orders ops).
Proof.
  assert (C : admissible clear_orders).
  { vm_compute. split; [|split]; intros; repeat match goal with H : Some _ = Some _ |- _ => injection H as <- end; discriminate. }
  intros ops. unfold layer_run. revert C. generalize clear_orders as s. induction ops as [|o ops IH]; intros s A; [exact A|].
  cbn. apply IH. destruct o as [v|v| | |]; cbn.
  - apply set_high_admissible, A.
  - apply set_low_admissible, A.
  - destruct A as (A & B & D). split; [|split]; cbn; try assumption; discriminate.
  - destruct A as (A & B & D). split; [|split]; cbn; try assumption; discriminate.
  - vm_compute. split; [|split]; intros; repeat match goal with H : Some _ = Some _ |- _ => injection H as <- end; discriminate.
Qed.
Print Assumptions c33_orders_admissible.

(** Exactly the values that keep the orders admissible are accepted; a rejected one changes nothing; an accepted one
    is stored as an integer and leaves the other order alone. *)
Theorem c33_assignment : forall s q h l, high_order s = Some h -> low_order s = Some l -> admissible s ->
  ((inject_Z l <= q)%Q -> set_high s (ONum q) = (mk_psponge (Some (Qfloor q)) (Some l), None)) /\
  ((q < inject_Z l)%Q -> set_high s (ONum q) = (s, Some ValueError)) /\
  ((0 <= q <= inject_Z h)%Q -> set_low s (ONum q) = (mk_psponge (Some h) (Some (Qfloor q)), None)) /\
  ((q < 0)%Q \/ (inject_Z h < q)%Q -> set_low s (ONum q) = (s, Some ValueError)).
Proof.
  intros s q h l H L (A & B & _). specialize (B _ L). assert (B' : (0 <= inject_Z l)%Q) by (unfold inject_Z, Qle; cbn; lia).
  unfold set_high, set_low, Qlt_bool. rewrite H, L. split; [|split; [|split]].
  - intros G. assert (P : Qle_bool 0 q = true) by (apply Qle_bool_iff; eapply Qle_trans; eassumption). rewrite P. cbn [negb].
    apply Qle_bool_iff in G. rewrite G. reflexivity.
  - intros G. destruct (negb (Qle_bool 0 q)); [reflexivity|].
    destruct (Qle_bool (inject_Z l) q) eqn:E; [|reflexivity]. apply Qle_bool_iff in E. apply Qlt_not_le in G. contradiction.
  - intros [G1 G2]. apply Qle_bool_iff in G1, G2. rewrite G1, G2. reflexivity.
  - intros G. destruct (Qle_bool 0 q) eqn:E; [|reflexivity]. cbn [negb]. destruct (Qle_bool q (inject_Z h)) eqn:F; [|reflexivity].
    apply Qle_bool_iff in E, F. destruct G as [G|G]; apply Qlt_not_le in G; contradiction.
Qed.
Print Assumptions c33_assignment.

(** A descending chain of order pairs: each low order is the next high order, one step lower or the lowest. *)
Inductive ladder (lowest step : Z) : Z -> list (Z * Z) -> Prop :=
| bottom : ladder lowest step lowest [(lowest, lowest)]
| rung a b ps : (lowest <= b < a)%Z -> (b = a - step \/ b = lowest /\ a - lowest <= step)%Z ->
    ladder lowest step b ps -> ladder lowest step a ((a, b) :: ps).

Lemma pairs_cons : forall (a : Z) ys, ys <> [] -> combine (removelast (a :: ys)) ys = (a, hd a ys) :: combine (removelast ys) (tl ys).
Proof. intros a ys H. destruct ys as [|y ys]; [contradiction|]. reflexivity. Qed.

Lemma range_ladder : forall lowest step, (0 < step)%Z -> forall k a, (lowest <= a)%Z -> (a - lowest <= Z.of_nat k)%Z ->
  let orders := range_by k a lowest step ++ [lowest; lowest] in
  hd 0%Z orders = a \/ orders = [lowest; lowest].
Proof.
  intros lowest step S k a H F orders. unfold orders. destruct k; cbn [range_by]; [right; reflexivity|].
  destruct (Z.ltb_spec 0 step); [|lia]. destruct (Z.ltb_spec lowest a); [left; reflexivity | right; reflexivity].
Qed.

Lemma pairs_ladder : forall lowest step, (0 < step)%Z -> forall k a, (lowest <= a)%Z -> (a - lowest <= Z.of_nat k)%Z ->
  let orders := range_by k a lowest step ++ [lowest; lowest] in
  ladder lowest step a (combine (removelast orders) (tl orders)).
Proof.
  intros lowest step S. induction k as [|k IH]; intros a H F; cbn zeta.
  - assert (a = lowest) by lia. subst. apply bottom.
  - cbn [range_by]. destruct (Z.ltb_spec 0 step); [|lia]. destruct (Z.ltb_spec lowest a) as [L|L].
    + cbn [app tl]. rewrite pairs_cons by (destruct (range_by k (a - step) lowest step); discriminate).
      destruct (Z.le_gt_cases lowest (a - step)) as [G|G].
      * assert (X := IH (a - step)%Z G ltac:(lia)). cbn zeta in X.
        assert (hd a (range_by k (a - step) lowest step ++ [lowest; lowest]) = a - step)%Z as ->.
        { destruct k; cbn [range_by]; [cbn; lia|]. destruct (Z.ltb_spec 0 step); [|lia].
          destruct (Z.ltb_spec lowest (a - step)); cbn; lia. }
        apply rung; [lia | left; reflexivity | exact X].
      * assert (R : range_by k (a - step) lowest step = []).
        { destruct k; [reflexivity|]. cbn [range_by]. destruct (Z.ltb_spec 0 step); [|lia].
          destruct (Z.ltb_spec lowest (a - step)); [lia | reflexivity]. }
        rewrite R. cbn. apply rung; [lia | right; lia | apply bottom].
    + assert (a = lowest) by lia. subst. apply bottom.
Qed.

(** What a statement does after any history: assignments change at most the order they name, deletions delete exactly the
    order they name, and a reset sets both to zero.  Without low order every high order from zero on is accepted, without
    high order no low order is. *)
Theorem c33_statements : forall ops o,
  let s := layer_run clear_orders ops in let s' := layer_run clear_orders (ops ++ [o]) in
  match o with
  | SetHigh v => low_order s' = low_order s /\ (high_order s' = high_order s \/ exists q, v = ONum q /\ high_order s' = Some (Qfloor q)) /\
                 (forall q, v = ONum q -> (0 <= q)%Q -> low_order s = None -> high_order s' = Some (Qfloor q))
  | SetLow v => high_order s' = high_order s /\ (low_order s' = low_order s \/ exists q, v = ONum q /\ low_order s' = Some (Qfloor q)) /\
                (high_order s = None -> low_order s' = low_order s)
  | DelHigh => high_order s' = None /\ low_order s' = low_order s
  | DelLow => low_order s' = None /\ high_order s' = high_order s
  | ClearOrders => high_order s' = Some 0%Z /\ low_order s' = Some 0%Z
  end.
Proof.
  intros ops o. cbv zeta. unfold layer_run. rewrite fold_left_app. cbn [fold_left]. generalize (fold_left layer_step ops clear_orders) as s. intros s.
  destruct o as [v|v| | |]; cbn [layer_step]; try (split; reflexivity).
  - destruct v as [q|]; cbn [set_high]; [|split; [reflexivity|]; split; [left; reflexivity|]; intros q E; discriminate]. unfold Qlt_bool. destruct (Qle_bool 0 q) eqn:P; cbn [negb].
    + destruct (Qle_bool (inject_Z match low_order s with Some l => l | None => 0%Z end) q) eqn:L; cbn [negb fst high_order low_order].
      * split; [reflexivity|]. split; [right; exists q; split; reflexivity|]. intros q' E _ _. injection E as <-. reflexivity.
      * split; [reflexivity|]. split; [left; reflexivity|]. intros q' E G N. injection E as <-. rewrite N in L. change (inject_Z 0) with 0%Q in L. congruence.
    + cbn [fst]. split; [reflexivity|]. split; [left; reflexivity|]. intros q' E G _. injection E as <-. apply Qle_bool_iff in G. congruence.
  - destruct v as [q|]; cbn [set_low]; [|split; [reflexivity|]; split; [left; reflexivity|]; reflexivity]. destruct (Qlt_bool q 0); [split; [reflexivity|]; split; [left|]; reflexivity|].
    destruct (high_order s) as [h|] eqn:H; [|cbn [fst]; rewrite H; split; [reflexivity|]; split; [left|]; reflexivity].
    destruct (Qle_bool q (inject_Z h)); cbn [negb fst high_order low_order]; rewrite ?H.
    + split; [reflexivity|]. split; [right; exists q; split; reflexivity | discriminate].
    + split; [reflexivity|]. split; [left; reflexivity | discriminate].
Qed.
Print Assumptions c33_statements.

(** The pairs form a descending chain from the highest to the lowest order. *)
Theorem c33_pairs : forall highest lowest step, (lowest <= highest)%Z -> (0 < step)%Z ->
  exists ps, pairs_of_orders highest lowest step = Ok ps /\ ladder lowest step highest ps.
Proof.
  intros highest lowest step H S. unfold pairs_of_orders. destruct (Z.eqb_spec step 0); [lia|].
  eexists. split; [reflexivity|]. apply pairs_ladder; lia.
Qed.
Print Assumptions c33_pairs.

(** Both orders of every pair can be assigned to a layer. *)
Theorem c33_pairs_assignable : forall highest lowest step ps, (0 <= lowest <= highest)%Z -> (0 < step)%Z ->
  pairs_of_orders highest lowest step = Ok ps -> forall h l, In (h, l) ps ->
  layer_run clear_orders [SetHigh (ONum (inject_Z h)); SetLow (ONum (inject_Z l))] = mk_psponge (Some h) (Some l).
Proof.
  intros highest lowest step ps [H0 H] S E h l I.
  destruct (c33_pairs highest lowest step H S) as (ps' & E' & L). rewrite E in E'. injection E' as <-.
  assert (X : (lowest <= l <= h)%Z).
  { clear E H. induction L as [|a b ps0 R D L IH]; destruct I as [Q|I]; try contradiction.
    - injection Q as <- <-. lia.
    - injection Q as <- <-. lia.
    - apply IH, I. }
  assert (C : clear_orders = mk_psponge (Some 0%Z) (Some 0%Z)) by (vm_compute; reflexivity).
  unfold layer_run. cbn [fold_left layer_step]. rewrite C.
  assert (Z0 : forall z, (0 <= z)%Z -> (0 <= inject_Z z)%Q) by (intros z Hz; unfold inject_Z, Qle; cbn; lia).
  assert (A : admissible (mk_psponge (Some 0%Z) (Some 0%Z))).
  { split; [|split]; cbn; intros; repeat match goal with H : Some _ = Some _ |- _ => injection H as <- end; lia. }
  destruct (c33_assignment (mk_psponge (Some 0%Z) (Some 0%Z)) (inject_Z h) 0%Z 0%Z eq_refl eq_refl A) as (P & _). cbn [low_order high_order] in P.
  rewrite P by (apply Z0; lia). cbn [fst]. rewrite Qfloor_Z.
  assert (A' : admissible (mk_psponge (Some h) (Some 0%Z))).
  { split; [|split]; cbn; intros; repeat match goal with H : Some _ = Some _ |- _ => injection H as <- end; lia. }
  destruct (c33_assignment (mk_psponge (Some h) (Some 0%Z)) (inject_Z l) h 0%Z eq_refl eq_refl A') as (_ & _ & Q & _). cbn [low_order high_order] in Q.
  rewrite Q; [rewrite Qfloor_Z; reflexivity|]. split; [apply Z0; lia|]. unfold inject_Z, Qle. cbn. lia.
Qed.
Print Assumptions c33_pairs_assignable.

Example c33_example :
  layer_run clear_orders [SetHigh (ONum (7#2)); SetLow (ONum 2); SetLow (ONum (16#5)); SetHigh (ONum (3#2)); SetHigh OOther] =
    mk_psponge (Some 3%Z) (Some 2%Z) /\
  pairs_of_orders 7 2 2 = Ok [(7, 5); (5, 3); (3, 2); (2, 2)]%Z.
Proof. split; vm_compute; reflexivity. Qed.

(** * C34 *)
Open Scope nat_scope.

Lemma clear_slices : forall n is b d, fold_left (fun b i => clear_slice i n b) is b d =
  b d && negb (existsb (fun i => (Nat.leb i d) && Nat.eqb (Nat.modulo (d - i) n) 0) is).
Proof.
  intros n is. induction is as [|i is IH]; intros b d; cbn; [rewrite andb_true_r; reflexivity|].
  rewrite IH. unfold clear_slice. destruct ((i <=? d) && _); cbn [orb negb]; [|reflexivity].
  rewrite andb_false_r. reflexivity.
Qed.

Lemma slice_hits : forall p f j i, j <= p -> i <= p ->
  (Nat.leb i (f * (p + 1) + j)) && Nat.eqb (Nat.modulo (f * (p + 1) + j - i) (p + 1)) 0 = Nat.eqb i j.
Proof.
  intros p f j i J I. destruct (Nat.eqb_spec i j) as [->|D].
  - assert (L : (j <=? f * (p + 1) + j) = true) by (apply Nat.leb_le; lia). rewrite L.
    replace (f * (p + 1) + j - j) with (f * (p + 1)) by lia. rewrite Nat.mod_mul by lia. reflexivity.
  - destruct (Nat.leb_spec i (f * (p + 1) + j)) as [L|L]; [|reflexivity]. cbn [andb].
    apply Nat.eqb_neq. intros M. apply Nat.mod_divides in M; [|lia]. destruct M as [c M].
    destruct (Nat.lt_trichotomy c f) as [Q|[Q|Q]]; nia.
Qed.

Lemma layer_dofs : forall p l f j, j <= p -> l_high l <= p ->
  fold_left (fun b i => clear_slice i (p + 1) b) (seq (l_high l + 1) (p - l_high l)) (get_dofs p (l_facet l)) (f * (p + 1) + j)
  = l_facet l f && Nat.leb j (l_high l).
Proof.
  intros p l f j J H. rewrite clear_slices. unfold get_dofs at 1.
  replace (f * (p + 1) + j) with (j + f * (p + 1)) at 1 by lia. rewrite Nat.div_add by lia. rewrite Nat.div_small by lia. cbn [plus].
  f_equal. destruct (Nat.leb_spec j (l_high l)) as [L|L].
  - apply negb_true_iff. destruct (existsb _ _) eqn:E; [|reflexivity]. exfalso. apply existsb_exists in E. destruct E as (i & I & Q).
    apply in_seq in I. rewrite slice_hits in Q by lia. apply Nat.eqb_eq in Q. lia.
  - apply negb_false_iff. apply existsb_exists. exists j. split; [apply in_seq; lia|]. rewrite slice_hits by lia. apply Nat.eqb_refl.
Qed.

Lemma facets_loop : forall p layers kept0 kept, reduce_facets_loop p layers kept0 = Ok kept ->
  forall f j, j <= p -> kept (f * (p + 1) + j) =
    kept0 (f * (p + 1) + j) || existsb (fun l => l_facet l f && Nat.leb j (l_high l)) layers.
Proof.
  intros p layers. induction layers as [|l layers IH]; intros kept0 kept H f j J; cbn [reduce_facets_loop] in H.
  - injection H as <-. cbn. rewrite orb_false_r. reflexivity.
  - destruct (Nat.ltb_spec p (l_high l)) as [L|L]; [discriminate H|]. rewrite (IH _ _ H f j J).
    rewrite layer_dofs by assumption. cbn [existsb]. rewrite orb_assoc. reflexivity.
Qed.

(** The unknown of facet [f] with local index [j] is kept exactly if no layer contains the facet or a layer that
    contains it admits the index. *)
Theorem c34_facets : forall p layers kept, reduce_facets 2 p layers = Ok (Some kept) -> forall f j, j <= p ->
  (kept (f * (p + 1) + j) = true <->
   (forall l, In l layers -> l_facet l f = false) \/ exists l, In l layers /\ l_facet l f = true /\ j <= l_high l).
Proof.
  intros p layers kept H f j J. destruct layers as [|l0 layers]; [discriminate|]. unfold reduce_facets in H.
  remember (l0 :: layers) as ls eqn:E. cbn [negb Nat.eqb] in H.
  destruct (reduce_facets_loop p ls _) as [k|e] eqn:L; [|discriminate]. cbn in H. injection H as <-.
  rewrite (facets_loop _ _ _ _ L f j J). unfold get_dofs.
  replace ((f * (p + 1) + j) / (p + 1)) with f
    by (replace (f * (p + 1) + j) with (j + f * (p + 1)) by lia; rewrite Nat.div_add, Nat.div_small by lia; reflexivity).
  rewrite orb_true_iff, negb_true_iff. split.
  - intros [A|A].
    + left. intros l I. destruct (l_facet l f) eqn:F; [|reflexivity].
      assert (X : existsb (fun l => l_facet l f) ls = true) by (apply existsb_exists; exists l; split; assumption). congruence.
    + right. apply existsb_exists in A. destruct A as (l & I & Q). apply andb_true_iff in Q. destruct Q as [Q1 Q2].
      apply Nat.leb_le in Q2. exists l. auto.
  - intros [A|(l & I & Q1 & Q2)].
    + left. destruct (existsb _ _) eqn:X; [|reflexivity]. apply existsb_exists in X. destruct X as (l & I & Q). rewrite (A l I) in Q. discriminate.
    + right. apply existsb_exists. exists l. split; [exact I|]. rewrite Q1. apply Nat.leb_le, Q2.
Qed.
Print Assumptions c34_facets.

(** Reduction fails exactly if a layer order exceeds the order of the space; nothing happens without layers. *)
Theorem c34_raises : forall p layers,
  (reduce_facets 2 p layers = Err ValueError <-> exists l, In l layers /\ p < l_high l) /\
  ((forall l, In l layers -> l_high l <= p) -> exists r, reduce_facets 2 p layers = Ok r /\ (r = None <-> layers = [])) /\
  (reduce_elements p layers (fun _ => p) = Err ValueError <-> exists l, In l layers /\ p < l_high l).
Proof.
  intros p layers.
  assert (F : forall ls kept, (exists l, In l ls /\ p < l_high l) -> reduce_facets_loop p ls kept = Err ValueError).
  { induction ls as [|l ls IH]; intros kept (x & I & Q); [contradiction|]. cbn [reduce_facets_loop].
    destruct (Nat.ltb_spec p (l_high l)) as [L|L]; [reflexivity|]. apply IH. destruct I as [->|I]; [lia | exists x; auto]. }
  assert (G : forall ls kept, (forall l, In l ls -> l_high l <= p) -> exists k, reduce_facets_loop p ls kept = Ok k).
  { induction ls as [|l ls IH]; intros kept H; [eexists; reflexivity|]. cbn [reduce_facets_loop].
    destruct (Nat.ltb_spec p (l_high l)) as [L|L]; [specialize (H l (or_introl eq_refl)); lia|].
    apply IH. intros x I. apply H. right. exact I. }
  assert (E : forall ls : list layer, (exists l, In l ls /\ p < l_high l) \/ (forall l, In l ls -> l_high l <= p)).
  { induction ls as [|l ls IH]; [right; intros l []|]. destruct (le_lt_dec (l_high l) p) as [L|L].
    - destruct IH as [(x & I & Q)|IH]; [left; exists x; split; [right|]; assumption|]. right. intros x [<-|I]; auto.
    - left. exists l. split; [left; reflexivity | exact L]. }
  split; [|split].
  - split.
    + intros H. destruct (E layers) as [X|X]; [exact X|]. exfalso. destruct layers as [|l ls]; [discriminate|].
      unfold reduce_facets in H. destruct (G (l :: ls) (fun d => negb (get_dofs p (fun f => existsb (fun l0 => l_facet l0 f) (l :: ls)) d)) X) as [k K].
      cbn [Nat.eqb negb] in H. rewrite K in H. discriminate.
    + intros X. destruct layers as [|l ls]; [destruct X as (? & [] & _)|]. unfold reduce_facets. cbn [Nat.eqb negb]. rewrite (F _ _ X). reflexivity.
  - intros X. destruct layers as [|l ls]; [exists None; split; [reflexivity | tauto]|].
    destruct (G (l :: ls) (fun d => negb (get_dofs p (fun f => existsb (fun l0 => l_facet l0 f) (l :: ls)) d)) X) as [k K].
    exists (Some k). unfold reduce_facets. cbn [Nat.eqb negb]. rewrite K. split; [reflexivity | split; discriminate].
  - generalize (fun _ : nat => p) as o. clear F G. induction layers as [|l ls IH]; intros o; cbn [reduce_elements].
    + split; [discriminate | intros (x & [] & _)].
    + destruct (Nat.ltb_spec p (l_high l)) as [L|L].
      * split; [intros _; exists l; split; [left; reflexivity | exact L] | reflexivity].
      * rewrite IH. split; intros (x & I & Q); [exists x; split; [right; exact I | exact Q]|].
        destruct I as [->|I]; [lia | exists x; split; assumption].
Qed.
Print Assumptions c34_raises.

(** Element-wise: an element keeps the order of the space outside the layers and gets the order of the last layer
    that contains it otherwise. *)
Theorem c34_elements : forall p layers order, reduce_elements p layers (fun _ => p) = Ok order -> forall e,
  ((forall l, In l layers -> l_facet l e = false) -> order e = p) /\
  (forall l1 l l2, layers = l1 ++ l :: l2 -> l_facet l e = true -> (forall x, In x l2 -> l_facet x e = false) -> order e = l_high l) /\
  order e <= p.
Proof.
  intros p layers.
  assert (A : forall o o', reduce_elements p layers o = Ok o' -> forall e, (forall l, In l layers -> l_facet l e = false) -> o' e = o e).
  { induction layers as [|l ls IH]; intros o o' H e N; cbn [reduce_elements] in H; [injection H as <-; reflexivity|].
    destruct (Nat.ltb p (l_high l)); [discriminate|]. rewrite (IH _ _ H e) by (intros x I; apply N; right; exact I).
    rewrite (N l (or_introl eq_refl)). reflexivity. }
  assert (C : forall o o', reduce_elements p layers o = Ok o' -> forall e, o e <= p -> o' e <= p).
  { clear A. induction layers as [|l ls IH]; intros o o' H e N; cbn [reduce_elements] in H; [injection H as <-; exact N|].
    destruct (Nat.ltb_spec p (l_high l)); [discriminate|]. apply (IH _ _ H e). destruct (l_facet l e); lia. }
  intros order H e. split; [apply (A _ _ H e)|]. split; [|apply (C _ _ H e); lia].
  intros l1 l l2 -> T N. clear A C. revert H. generalize (fun _ : nat => p) as o. induction l1 as [|x l1 IH]; intros o H; cbn [reduce_elements app] in H.
  - destruct (Nat.ltb p (l_high l)); [discriminate|].
    assert (B : forall ls o o', reduce_elements p ls o = Ok o' -> (forall l, In l ls -> l_facet l e = false) -> o' e = o e).
    { induction ls as [|y ls IHs]; intros o1 o2 H1 N1; cbn [reduce_elements] in H1; [injection H1 as <-; reflexivity|].
      destruct (Nat.ltb p (l_high y)); [discriminate|]. rewrite (IHs _ _ H1) by (intros z I; apply N1; right; exact I).
      rewrite (N1 y (or_introl eq_refl)). reflexivity. }
    rewrite (B _ _ _ H N). rewrite T. reflexivity.
  - destruct (Nat.ltb p (l_high x)); [discriminate|]. apply (IH _ H).
Qed.
Print Assumptions c34_elements.

(** Facets: three; the middle one lies in both layers. *)
Example c34_example :
  let a := mk_layer (fun f => Nat.leb f 1) 1 in let b := mk_layer (fun f => Nat.leb 1 f && Nat.leb f 2) 2 in
  match reduce_facets 2 3 [a; b] with
  | Ok (Some kept) => map kept (seq 0 16) =
      [true; true; false; false;  true; true; true; false;  true; true; true; false;  true; true; true; true]
  | _ => False
  end /\ reduce_facets 2 3 [mk_layer (fun _ => true) 4] = Err ValueError.
Proof. vm_compute. auto. Qed.

(** * C35 *)

Section C35.
Context {mapping : Type}.
Notation def_run := (def_run mapping). Notation clear_deformation := (clear_deformation mapping).

(** The mapping last assigned to a coordinate (the identity after None or a reset, nothing changes if rejected). *)
Definition last_map (a : axis) (ops : list (def_op mapping)) : gmap mapping :=
  fold_left (fun m o => match o with
    | SetAxis _ b v => match a, b with
        | AxisX, AxisX | AxisY, AxisY | AxisZ, AxisZ => match v with MNone _ => Identity _ a | MMap _ x => x | MOther _ => m end
        | _, _ => m end
    | ClearDef _ => Identity _ a
    | _ => m end) ops (Identity _ a).

(** The dimension last set. *)
Definition last_dim (ops : list (def_op mapping)) : Z :=
  fold_left (fun n o => match o with SetDim _ m => m | ClearDef _ => 2%Z | _ => n end) ops 2%Z.

Definition matches (d : deformation mapping) (ops : list (def_op mapping)) : Prop :=
  d_dim _ d = Some (last_dim ops) /\ d_x _ d = Some (last_map AxisX ops) /\ d_y _ d = Some (last_map AxisY ops) /\ d_z _ d = Some (last_map AxisZ ops).

Lemma run_matches : forall ops, matches (def_run clear_deformation ops) ops.
Proof.
  intros ops. induction ops as [|o ops IH] using rev_ind; [vm_compute; auto|].
  unfold M_Layers.def_run in *. rewrite fold_left_app. cbn [fold_left].
  destruct IH as (A & B & C & D). unfold matches, last_dim, last_map in *. rewrite !fold_left_app. cbn [fold_left].
  set (d := fold_left (def_step mapping) ops clear_deformation) in *.
  destruct o as [a v|n|f|]; cbn [def_step].
  - unfold set_axis. destruct v as [|m|]; cbn [check_mapping]; [| |destruct a; auto];
      unfold set_function; rewrite A; destruct a; cbn; auto.
  - cbn. auto.
  - cbn. auto.
  - vm_compute. auto.
Qed.

(** Right after a mapping was assigned to a coordinate, the function consists of the mappings last assigned. *)
Theorem c35_function : forall ops a m,
  let ops' := ops ++ [SetAxis mapping a (MMap _ m)] in
  get_function _ (def_run clear_deformation ops') =
  Ok (slice mapping (last_dim ops') [last_map AxisX ops'; last_map AxisY ops'; last_map AxisZ ops']).
Proof.
  intros ops a m. cbn zeta. unfold M_Layers.def_run. rewrite fold_left_app. cbn [fold_left def_step].
  destruct (run_matches ops) as (A & B & C & D). unfold M_Layers.def_run in *.
  unfold last_map, last_dim. rewrite !fold_left_app. cbn [fold_left].
  fold (last_map AxisX ops) (last_map AxisY ops) (last_map AxisZ ops) (last_dim ops).
  unfold set_axis. cbn [check_mapping]. unfold set_function. rewrite A.
  destruct a; cbn [store fst d_dim get_function d_function stored]; unfold stored; rewrite ?B, ?C, ?D; reflexivity.
Qed.

(** It stays so until the dimension, the function or a coordinate is assigned again; rejected mappings do not matter. *)
Theorem c35_rejected_unchanged : forall d a, set_axis mapping d a (MOther _) = (d, Some TypeError).
Proof. reflexivity. Qed.

(** Components: for a dimension from 1 to 3 the i-th component is the mapping of the i-th coordinate. *)
Theorem c35_components : forall n (x y z : gmap mapping), (0 <= n <= 3)%Z ->
  slice mapping n [x; y; z] = firstn (Z.to_nat n) [x; y; z] /\ length (slice mapping n [x; y; z]) = Z.to_nat n.
Proof.
  intros n x y z H. unfold slice. destruct (Z.ltb_spec n 0); [lia|]. split; [reflexivity|]. rewrite firstn_length. cbn [length]. lia.
Qed.

(** The full claim is false when a coordinate is reset: the function keeps the old mapping although the coordinate
    shows the identity. *)
Theorem c35_reset_refuted : forall m : mapping,
  let d := def_run clear_deformation [SetAxis _ AxisX (MMap _ (Map _ m)); SetAxis _ AxisX (MNone _)] in
  d_x _ d = Some (Identity _ AxisX) /\ get_function _ d = Ok [Map _ m; Identity _ AxisY].
Proof. intros m. vm_compute. auto. Qed.

(** It is false after a change of the dimension as well. *)
Theorem c35_dim_refuted : forall m : mapping,
  let d := def_run clear_deformation [SetAxis _ AxisX (MMap _ (Map _ m)); SetDim _ 3] in
  d_dim _ d = Some 3%Z /\ get_function _ d = Ok [Map _ m; Identity _ AxisY].
Proof. intros m. vm_compute. auto. Qed.

(** A new deformation has no function although all coordinates have mappings. *)
Theorem c35_fresh_refuted : get_function _ clear_deformation = Err ValueError /\
  d_x _ clear_deformation = Some (Identity _ AxisX) /\ d_y _ clear_deformation = Some (Identity _ AxisY).
Proof. vm_compute. auto. Qed.

(** Requesting the overall deformation without explicit layers always fails. *)
Theorem c35_overall_refuted : forall D G (build : D -> result G), grid_deformation_function build None = Err AttributeError.
Proof. reflexivity. Qed.
End C35.
Print Assumptions c35_function.
Print Assumptions c35_rejected_unchanged.
Print Assumptions c35_components.
Print Assumptions c35_reset_refuted.
Print Assumptions c35_dim_refuted.
Print Assumptions c35_fresh_refuted.
Print Assumptions c35_overall_refuted.

Example c35_example :
  let m n := MMap nat (Map nat n) in
  get_function _ (def_run nat (clear_deformation nat)
    [SetDim _ 3; SetAxis _ AxisZ (m 5); SetAxis _ AxisX (m 1); SetAxis _ AxisY (MOther _); SetAxis _ AxisX (m 2)]) =
  Ok [Map nat 2; Identity nat AxisY; Map nat 5].
Proof. vm_compute. reflexivity. Qed.
