(** Theorems about what conditions on named regions contribute (C87). *)
From Coq Require Import Reals String List Arith Bool Lia Lra Permutation.
From Verif Require Import Base Dict M_Bla M_Flow M_Formulation M_Weak M_Conditions M_Regions S_Conditions L_Conditions P_Conditions S_Weak L_Weak S_Regions.
Import ListNotations.
Open Scope R_scope.
Open Scope list_scope.

(** ** Sums *)

Lemma sum_ext {A} (l : list A) f g : (forall a, In a l -> f a = g a) -> sum_over l f = sum_over l g.
Proof. induction l as [|a l IH]; intros H; [reflexivity|]. cbn. rewrite (H a (or_introl eq_refl)), IH; [reflexivity|]. intros b I. apply H. right. exact I. Qed.

Lemma sum_zero {A} (l : list A) f : (forall a, In a l -> f a = 0) -> sum_over l f = 0.
Proof. induction l as [|a l IH]; intros H; [reflexivity|]. cbn. rewrite (H a (or_introl eq_refl)), IH; [ring|]. intros b I. apply H. right. exact I. Qed.

Lemma sum_plus {A} (l : list A) f g : sum_over l (fun a => f a + g a) = sum_over l f + sum_over l g.
Proof. induction l as [|a l IH]; cbn; [ring|]. rewrite IH. ring. Qed.

Lemma sum_swap {A B} (l : list A) (l' : list B) f : sum_over l (fun a => sum_over l' (fun b => f a b)) = sum_over l' (fun b => sum_over l (fun a => f a b)).
Proof.
  induction l as [|a l IH]; cbn; [symmetry; apply sum_zero; reflexivity|]. rewrite IH, <- sum_plus. reflexivity.
Qed.

Lemma sum_perm {A} (l l' : list A) f : Permutation l l' -> sum_over l f = sum_over l' f.
Proof. intros P. induction P; cbn; [reflexivity|rewrite IHP; reflexivity|ring|congruence]. Qed.

Lemma sum_filter {A} (p : A -> bool) l f : sum_over (filter p l) f = sum_over l (fun a => if p a then f a else 0).
Proof. induction l as [|a l IH]; [reflexivity|]. cbn. destruct (p a); cbn; rewrite IH; ring. Qed.

Lemma sum_map {A B} (h : A -> B) l f : sum_over (map h l) f = sum_over l (fun a => f (h a)).
Proof. induction l as [|a l IH]; [reflexivity|]. cbn. rewrite IH. reflexivity. Qed.

Lemma sum_weighted {A} (l : list A) q f : sum_over l (fun a => weighted q (f a)) = weighted q (fun y => sum_over l (fun a => f a y)).
Proof.
  induction l as [|a l IH]; cbn; [symmetry; apply weighted_zero; reflexivity|]. rewrite IH, <- weighted_plus. reflexivity.
Qed.

(** ** The list of terms *)

Lemma pattern_list k order : NoDup (dkeys (k_data k)) -> (forall r, In r (dkeys (k_data k)) -> ~ has_bar r) -> distinct_regions k ->
  NoDup order -> (forall c, In c order -> exists r, carries k r c) -> to_pattern k order = map (fun c => (pkey k c, c)) order.
Proof.
  intros N B D No Ca. unfold to_pattern. change (fun (d : dict cond) (c : cond) => dset d (join_bar (regions_of (k_data k) c)) c) with (fun (d : dict cond) c => dset d (pkey k c) c).
  assert (G : forall done rest, order = done ++ rest -> fold_left (fun (d : dict cond) c => dset d (pkey k c) c) rest (map (fun c => (pkey k c, c)) done) = map (fun c => (pkey k c, c)) order).
  { intros done rest. revert done. induction rest as [|c rest IH]; intros done E; cbn [fold_left].
    - rewrite app_nil_r in E. subst. reflexivity.
    - rewrite dkeys_dset_absent.
      + assert (E' : order = (done ++ [c]) ++ rest) by (rewrite <- app_assoc; exact E). rewrite <- (IH _ E'). rewrite map_app. reflexivity.
      + intros I. unfold dkeys in I. rewrite map_map in I. apply in_map_iff in I. destruct I as (c' & E2 & I). cbn in E2.
        assert (C' : exists r, carries k r c') by (apply Ca; rewrite E; apply in_or_app; left; exact I).
        assert (C : exists r, carries k r c) by (apply Ca; rewrite E; apply in_or_app; right; left; reflexivity).
        pose proof (pkey_inj k c' c N B C' C E2) as E3. assert (Z : c' = c).
        { apply (D c' c (regions_of (k_data k) c)); [apply attached_regions; congruence|apply attached_regions; reflexivity|].
          destruct C as (r & C). apply regions_of_In in C; [|exact N]. intros Z. rewrite Z in C. contradiction. }
        subst c'. rewrite E in No. apply NoDup_remove_2 in No. apply No, in_or_app. left. exact I. }
  apply (G [] order eq_refl).
Qed.

Definition entry_of (term : cond -> result (option formulation)) (pc : string * cond) : dict (formulation * string * cond) :=
  match term (snd pc) with Ok (Some f) => [(term_key (snd pc) (fst pc), (f, fst pc, snd pc))] | _ => [] end.

Lemma terms_list term (T : forall c f, term c = Ok (Some f) -> In (c_class c) term_classes) :
  forall items blf blf', NoDup (dkeys items) ->
  (forall p c, In (p, c) items -> In (c_class c) term_classes -> ~ In (term_key c p) (dkeys blf)) ->
  add_terms term items blf = Ok blf' -> blf' = blf ++ concat (map (entry_of term) items).
Proof.
  induction items as [|[p c] items IH]; intros blf blf' N F H; cbn in H.
  - injection H as <-. cbn. rewrite app_nil_r. reflexivity.
  - unfold bind in H. inversion N as [|? ? N1 N2]; subst. destruct (term c) as [[f|]|e] eqn:E; [| |discriminate].
    + rewrite dkeys_dset_absent in H by (apply F; [left; reflexivity|eapply T; exact E]).
      rewrite (IH _ _ N2) with (2 := H).
      * cbn [map concat]. unfold entry_of at 2. cbn [fst snd]. rewrite E. rewrite <- app_assoc. reflexivity.
      * intros p' c' I K J. unfold dkeys in J. rewrite map_app in J. apply in_app_or in J. destruct J as [J|[J|[]]].
        -- apply (F p' c'); [right; exact I|exact K|exact J].
        -- cbn in J. apply term_key_inj in J; [|eapply T; exact E|exact K]. subst p'. apply N1. change p with (fst (p, c')). apply in_map, I.
    + rewrite (IH _ _ N2) with (2 := H).
      * cbn [map concat]. unfold entry_of at 2. cbn [fst snd]. rewrite E. reflexivity.
      * intros p' c' I. apply F. right. exact I.
Qed.

Definition acting (term : cond -> result (option formulation)) (c : cond) : bool := match term c with Ok (Some _) => true | _ => false end.

Lemma terms_entries term (T : forall c f, term c = Ok (Some f) -> In (c_class c) term_classes) k order blf :
  NoDup (dkeys (k_data k)) -> (forall r, In r (dkeys (k_data k)) -> ~ has_bar r) -> distinct_regions k ->
  NoDup order -> (forall c, In c order -> exists r, carries k r c) -> add_terms term (to_pattern k order) [] = Ok blf ->
  map (fun kv => (snd (fst (snd kv)), snd (snd kv))) blf = map (fun c => (pkey k c, c)) (filter (acting term) order).
Proof.
  intros N B D No Ca H. apply (terms_list term T) in H; [|apply NoDup_to_pattern|intros p c _ _ []]. cbn [app] in H. subst blf.
  rewrite (pattern_list k order N B D No Ca). clear. induction order as [|c order IH]; [reflexivity|]. cbn [map concat filter]. rewrite map_app, IH.
  unfold entry_of, acting. cbn [fst snd]. destruct (term c) as [[f|]|e]; reflexivity.
Qed.

(** ** Integrals over named regions *)

Lemma definedon_key region k c q f : NoDup (dkeys (k_data k)) -> (forall r, In r (dkeys (k_data k)) -> ~ has_bar r) -> (exists r, carries k r c) ->
  weighted (definedon region (pkey k c) q) f = sum_over (k_data k) (fun rl => if existsb (cond_eqb c) (snd rl) then weighted q (fun y => if String.eqb (region y) (fst rl) then f y else 0) else 0).
Proof.
  intros N B (r0 & C0).
  assert (Sp : split_bar (pkey k c) = regions_of (k_data k) c).
  { unfold pkey, join_bar. apply join_split.
    - intros Z. apply regions_of_In in C0; [|exact N]. rewrite Z in C0. contradiction.
    - intros r I. apply B. unfold regions_of in I. apply in_map_iff in I. destruct I as (x & <- & I). apply filter_In in I. apply in_map, I. }
  unfold definedon. rewrite Sp. change (filter (fun wy : R * nat => existsb (String.eqb (region (snd wy))) (regions_of (k_data k) c)) q) with
    (at_points (fun y => existsb (String.eqb (region y)) (regions_of (k_data k) c)) q).
  rewrite <- weighted_select. rewrite <- (sum_filter (fun rl => existsb (cond_eqb c) (snd rl)) (k_data k) (fun rl => weighted q (fun y => if String.eqb (region y) (fst rl) then f y else 0))).
  rewrite sum_weighted. apply weighted_ext. intros w y _. unfold regions_of.
  set (l := filter (fun rl : string * list cond => existsb (cond_eqb c) (snd rl)) (k_data k)).
  assert (Nl : NoDup (map fst l)) by (apply NoDup_map_filter, N). clearbody l. induction l as [|[r cs] l IH]; [reflexivity|].
  cbn [map existsb sum_over fst] in *. inversion Nl as [|? ? N1 N2]; subst. rewrite <- (IH N2). destruct (String.eqb_spec (region y) r) as [E|E]; cbn [orb].
  - destruct (existsb (String.eqb (region y)) (map fst l)) eqn:X; [|ring]. apply existsb_exists in X. destruct X as (z & I & Z). apply String.eqb_eq in Z. subst z. subst r. contradiction.
  - ring.
Qed.

Lemma nodup_members (order l : list cond) (acts : cond -> bool) : NoDup order -> (forall c, In c l -> acts c = true -> In c order) ->
  Permutation (filter (fun c => existsb (cond_eqb c) l) (filter acts order)) (nodup cond_dec (filter acts l)).
Proof.
  intros N I. apply NoDup_Permutation.
  - apply NoDup_filter, NoDup_filter, N.
  - apply NoDup_nodup.
  - intros c. rewrite !filter_In, nodup_In, filter_In, existsb_cond. split; [tauto|]. intros [A B]. repeat split; auto.
Qed.

Lemma regroup region points acts g k order : NoDup (dkeys (k_data k)) -> (forall r, In r (dkeys (k_data k)) -> ~ has_bar r) -> NoDup order ->
  (forall c, In c order -> exists r, carries k r c) -> (forall r c, carries k r c -> acts c = true -> In c order) ->
  sum_over (filter acts order) (fun c => weighted (definedon region (pkey k c) (points c)) (g c)) = by_region region points acts g k.
Proof.
  intros N B No Ca Al. unfold by_region.
  rewrite (sum_ext _ _ (fun c => sum_over (k_data k) (fun rl => if existsb (cond_eqb c) (snd rl) then weighted (points c) (fun y => if String.eqb (region y) (fst rl) then g c y else 0) else 0))).
  2: { intros c I. apply definedon_key; [exact N|exact B|]. apply Ca. apply filter_In in I. apply I. }
  rewrite sum_swap. apply sum_ext. intros [r l] I. cbn [fst snd].
  rewrite <- (sum_filter (fun c => existsb (cond_eqb c) l) (filter acts order) (fun c => weighted (points c) (fun y => if String.eqb (region y) r then g c y else 0))).
  apply sum_perm, nodup_members; [exact No|]. intros c J A. apply (Al r c); [|exact A]. apply carries_In; [exact N|]. exists l. split; assumption.
Qed.

(** ** What a set of conditions contributes *)

Lemma boundary_sum region points vector (v : cond -> nat -> list R) t : forall blf,
  (forall key f p c w y, In (key, (f, p, c)) blf -> In (w, y) (definedon region p (points c)) -> vector c y = Ok (v c y)) ->
  boundary_form (boundary_integrals region points vector blf) t =
  Ok (sum_over (map (fun kv => (snd (fst (snd kv)), snd (snd kv))) blf) (fun pc => weighted (definedon region (fst pc) (points (snd pc))) (fun y => inner (v (snd pc) y) (tVhat t y)))).
Proof.
  induction blf as [|[key [[f p] c]] blf IH]; intros H; [reflexivity|]. cbn [boundary_integrals map boundary_form snd fst sum_over boundary_integral b_rule b_vector].
  rewrite (integral_make _ _ (fun y => inner (v c y) (tVhat t y))).
  - unfold bind at 1. unfold boundary_integrals in IH. rewrite IH; [reflexivity|]. intros key' f' p' c' w y I. apply (H key' f' p' c' w y). right. exact I.
  - intros w y I. rewrite (H key f p c w y (or_introl eq_refl) I). reflexivity.
Qed.

Lemma sponge_sum region points target function (s : settings) u (res : cond -> nat -> list R) t : forall blf,
  (forall key f p c w y, In (key, (f, p, c)) blf -> In (w, y) (definedon region p (points c)) -> sponge_residual s (target c y) (function c y) (uU u y) = Ok (res c y)) ->
  domain_form s (sponge_integrals region points target function blf) u t =
  Ok (sum_over (map (fun kv => (snd (fst (snd kv)), snd (snd kv))) blf) (fun pc => weighted (definedon region (fst pc) (points (snd pc))) (fun y => inner (res (snd pc) y) (tV t y)))).
Proof.
  induction blf as [|[key [[f p] c]] blf IH]; intros H; [reflexivity|]. cbn [sponge_integrals map domain_form snd fst sum_over sponge_integral s_rule s_target s_function].
  rewrite (integral_make _ _ (fun y => inner (res c y) (tV t y))).
  - unfold bind at 1. unfold sponge_integrals in IH. rewrite IH; [reflexivity|]. intros key' f' p' c' w y I. apply (H key' f' p' c' w y). right. exact I.
  - intros w y I. rewrite (H key f p c w y (or_introl eq_refl) I). reflexivity.
Qed.

(** The points of a term belong to regions that carry its condition. *)
Lemma entry_points region points term (T : forall c f, term c = Ok (Some f) -> In (c_class c) term_classes) k order blf :
  NoDup (dkeys (k_data k)) -> (forall r, In r (dkeys (k_data k)) -> ~ has_bar r) -> (forall c, In c order -> exists r, carries k r c) ->
  add_terms term (to_pattern k order) [] = Ok blf ->
  forall key f p c w y, In (key, (f, p, c)) blf -> In (w, y) (definedon region p (points c)) ->
  term c = Ok (Some f) /\ In (w, y) (points c) /\ carries k (region y) c.
Proof.
  intros N B Ca H key f p c w y I J. apply (terms_list term T) in H; [|apply NoDup_to_pattern|intros ? ? _ _ []]. cbn [app] in H. subst blf.
  apply in_concat in I. destruct I as (l & L & I). apply in_map_iff in L. destruct L as ([p' c'] & <- & L). unfold entry_of in I. cbn [fst snd] in I.
  destruct (term c') as [[f'|]|e] eqn:E; [|contradiction|contradiction]. destruct I as [I|[]]. injection I as _ <- <- <-.
  apply to_pattern_In in L. destruct L as [L ->]. unfold definedon in J. apply filter_In in J. destruct J as [J K]. split; [exact E|]. split; [exact J|].
  apply existsb_exists in K. destruct K as (r & K & Z). apply String.eqb_eq in Z. cbn in Z. subst r.
  destruct (Ca c' L) as (r0 & C0). unfold pkey, join_bar in K. rewrite join_split in K.
  - apply regions_of_In; assumption.
  - intros Z. apply regions_of_In in C0; [|exact N]. rewrite Z in C0. contradiction.
  - intros r I. apply B. unfold regions_of in I. apply in_map_iff in I. destruct I as (x & <- & I). apply filter_In in I. apply in_map, I.
Qed.

(** If no two boundary conditions have exactly the same regions, the boundary terms are the integrals of the residuals of all
    conditions over the boundaries that they are attached to, boundary by boundary. *)
Theorem c87_boundary : forall region points vector (v : cond -> nat -> list R) ready sh k order blf t (acts : cond -> bool),
  reachable k -> iteration_order k "Condition" order -> (forall r c, carries k r c -> isa (c_class c) "Condition") ->
  (forall r, In r (dkeys (k_data k)) -> ~ has_bar r) -> distinct_regions k -> (forall c, acts c = true <-> ~ isa (c_class c) "Periodic") ->
  (forall c w y, carries k (region y) c -> acts c = true -> In (w, y) (points c) -> vector c y = Ok (v c y)) ->
  add_terms (boundary_term ready sh) (to_pattern k order) [] = Ok blf ->
  boundary_form (boundary_integrals region points vector blf) t = Ok (by_region region points acts (fun c y => inner (v c y) (tVhat t y)) k).
Proof.
  intros region points vector v ready sh k order blf t acts W [No O] Cc B D Ac V H. destruct (reachable_wf k W) as [N _].
  assert (T : forall c f, boundary_term ready sh c = Ok (Some f) -> In (c_class c) term_classes) by (intros c f E; apply in_or_app; left; eapply boundary_term_class; exact E).
  assert (Ca : forall c, In c order -> exists r, carries k r c) by (intros c I; apply O, I).
  rewrite (boundary_sum region points vector v).
  - f_equal. rewrite (terms_entries _ T k order blf N B D No Ca H), sum_map.
    assert (F : filter (acting (boundary_term ready sh)) order = filter acts order).
    { apply filter_ext_in. intros c I. assert (Tc : exists t0, boundary_term ready sh c = Ok t0).
      { destruct (boundary_term ready sh c) as [t0|e] eqn:E; [eexists; reflexivity|]. exfalso.
        assert (J : In (pkey k c, c) (to_pattern k order)) by (rewrite (pattern_list k order N B D No Ca); apply (in_map (fun c => (pkey k c, c))), I).
        destruct (add_terms_err _ _ [] _ _ _ J E) as [e' E']. congruence. }
      destruct Tc as [t0 E]. unfold acting. rewrite E. destruct t0 as [f|].
      - symmetry. apply Ac. intros P. apply (boundary_term_periodic ready sh) in P. congruence.
      - symmetry. apply (boundary_term_periodic ready sh) in E. destruct (acts c) eqn:X; [|reflexivity]. apply Ac in X. contradiction. }
    rewrite F. cbn [fst snd]. apply (regroup region points acts (fun c y => inner (v c y) (tVhat t y)) k order N B No Ca).
    intros r c C _. apply O. split; [apply (Cc r c C)|exists r; exact C].
  - intros key f p c w y I J. destruct (entry_points region points _ T k order blf N B Ca H key f p c w y I J) as (E & P & C).
    apply (V c w y C); [|exact P]. apply Ac. intros Z. apply (boundary_term_periodic ready sh) in Z. congruence.
Qed.
Print Assumptions c87_boundary.

(** The same for the sponge layers of the domain. *)
Theorem c87_sponges : forall s region points target function (res : cond -> nat -> list R) ready k order blf u t (acts : cond -> bool),
  reachable k -> iteration_order k "Condition" order -> (forall r c, carries k r c -> isa (c_class c) "Condition") ->
  (forall r, In r (dkeys (k_data k)) -> ~ has_bar r) -> distinct_regions k -> (forall c, acts c = true <-> isa (c_class c) "SpongeLayer") ->
  (forall c w y, carries k (region y) c -> acts c = true -> In (w, y) (points c) -> sponge_residual s (target c y) (function c y) (uU u y) = Ok (res c y)) ->
  add_terms (domain_term ready) (to_pattern k order) [] = Ok blf ->
  domain_form s (sponge_integrals region points target function blf) u t = Ok (by_region region points acts (fun c y => inner (res c y) (tV t y)) k).
Proof.
  intros s region points target function res ready k order blf u t acts W [No O] Cc B D Ac V H. destruct (reachable_wf k W) as [N _].
  assert (Sp : forall c f, domain_term ready c = Ok (Some f) -> acts c = true).
  { intros c f E. unfold domain_term in E. destruct (is_kind c "SpongeLayer") eqn:K; [apply Ac, subclass_spec, K|].
    destruct (is_kind c "PSpongeLayer") eqn:K'; [|destruct (is_kind c "Initial"); discriminate].
    apply subclass_spec in K'. apply Ac. eapply isa_trans; [exact K'|]. apply subclass_spec. vm_compute. reflexivity. }
  assert (T : forall c f, domain_term ready c = Ok (Some f) -> In (c_class c) term_classes).
  { intros c f E. apply in_or_app. right. pose proof (Sp c f E) as A. apply Ac in A. apply isa_members in A. destruct c as [i cls]. cbn [c_class] in *. clear E. vm_compute in A. destruct A as [->|A]; [left; reflexivity|].
    repeat (destruct A as [A|A]; [subst cls; cbn; auto|]). contradiction. }
  assert (Ca : forall c, In c order -> exists r, carries k r c) by (intros c I; apply O, I).
  rewrite (sponge_sum region points target function s u res).
  - f_equal. rewrite (terms_entries _ T k order blf N B D No Ca H), sum_map.
    assert (F : filter (acting (domain_term ready)) order = filter acts order).
    { apply filter_ext_in. intros c I. assert (Tc : exists t0, domain_term ready c = Ok t0).
      { destruct (domain_term ready c) as [t0|e] eqn:E; [eexists; reflexivity|]. exfalso.
        assert (J : In (pkey k c, c) (to_pattern k order)) by (rewrite (pattern_list k order N B D No Ca); apply (in_map (fun c => (pkey k c, c))), I).
        destruct (add_terms_err _ _ [] _ _ _ J E) as [e' E']. congruence. }
      destruct Tc as [t0 E]. unfold acting. rewrite E. destruct t0 as [f|]; [symmetry; apply (Sp c f E)|].
      destruct (acts c) eqn:X; [|reflexivity]. apply Ac, subclass_spec in X. unfold domain_term in E. unfold is_kind in E at 1. rewrite X in E. destruct (ready c); discriminate. }
    rewrite F. cbn [fst snd]. apply (regroup region points acts (fun c y => inner (res c y) (tV t y)) k order N B No Ca).
    intros r c C _. apply O. split; [apply (Cc r c C)|exists r; exact C].
  - intros key f p c w y I J. destruct (entry_points region points _ T k order blf N B Ca H key f p c w y I J) as (E & P & C).
    apply (V c w y C); [|exact P]. apply (Sp c f E).
Qed.
Print Assumptions c87_sponges.

(** So the terms do not depend on the iteration order of the set of conditions. *)
Theorem c87_order : forall region points vector ready sh k order order' blf blf' t,
  reachable k -> iteration_order k "Condition" order -> iteration_order k "Condition" order' -> (forall r c, carries k r c -> isa (c_class c) "Condition") ->
  (forall r, In r (dkeys (k_data k)) -> ~ has_bar r) -> distinct_regions k ->
  (forall c w y, carries k (region y) c -> ~ isa (c_class c) "Periodic" -> In (w, y) (points c) -> exists a, vector c y = Ok a) ->
  add_terms (boundary_term ready sh) (to_pattern k order) [] = Ok blf -> add_terms (boundary_term ready sh) (to_pattern k order') [] = Ok blf' ->
  boundary_form (boundary_integrals region points vector blf) t = boundary_form (boundary_integrals region points vector blf') t.
Proof.
  intros region points vector ready sh k order order' blf blf' t W O O' Cc B D V H H'.
  set (acts := fun c => negb (subclass (c_class c) "Periodic")).
  assert (Ac : forall c, acts c = true <-> ~ isa (c_class c) "Periodic") by (intros c; unfold acts; rewrite negb_true_iff, <- subclass_spec; destruct (subclass (c_class c) "Periodic"); split; congruence).
  set (v := fun c y => match vector c y with Ok a => a | Err _ => [] end).
  assert (V' : forall c w y, carries k (region y) c -> acts c = true -> In (w, y) (points c) -> vector c y = Ok (v c y)).
  { intros c w y C A I. destruct (V c w y C (proj1 (Ac c) A) I) as [a E]. unfold v. rewrite E. reflexivity. }
  rewrite (c87_boundary region points vector v ready sh k order blf t acts W O Cc B D Ac V' H).
  rewrite (c87_boundary region points vector v ready sh k order' blf' t acts W O' Cc B D Ac V' H'). reflexivity.
Qed.
Print Assumptions c87_order.

(** ** Naming regions together or one by one *)

Definition same_entry (a b : string * list cond) : Prop := fst a = fst b /\ Forall2 twins (snd a) (snd b).
Definition same_data (d d' : dict (list cond)) : Prop := Forall2 same_entry d d'.

Lemma same_keys d d' : same_data d d' -> dkeys d = dkeys d'.
Proof. intros H. induction H as [|a b d d' [E _] H IH]; [reflexivity|]. unfold dkeys in *. cbn. rewrite E, IH. reflexivity. Qed.

Lemma same_append c c' : twins c c' -> forall d d' r, same_data d d' -> same_data (append_to c d r) (append_to c' d' r).
Proof.
  intros Tc d d' r H. unfold append_to.
  assert (G : match dget d r, dget d' r with Some l, Some l' => Forall2 twins l l' | None, None => True | _, _ => False end).
  { induction H as [|[n l] [n' l'] d d' [E F] H IH]; [exact I|]. cbn in E, F. subst n'. cbn [dget]. destruct (String.eqb r n); [exact F|exact IH]. }
  destruct (dget d r) as [l|], (dget d' r) as [l'|]; try contradiction; [|exact H].
  assert (F : Forall2 twins (l ++ [c]) (l' ++ [c'])) by (apply Forall2_app; [exact G|constructor; [exact Tc|constructor]]).
  clear G. induction H as [|[n a] [n' a'] d d' [E F'] H IH]; cbn in *.
  - constructor; [split; [reflexivity|exact F]|constructor].
  - subst n'. destruct (String.eqb r n); constructor; try (split; [reflexivity|]; assumption); assumption.
Qed.

Lemma append_absent c : forall names d, fold_left (append_to c) (regions_from_pattern d names) d = fold_left (append_to c) names d.
Proof.
  intros names d. assert (G : forall d', dkeys d' = dkeys d -> fold_left (append_to c) (regions_from_pattern d names) d' = fold_left (append_to c) names d').
  { unfold regions_from_pattern. induction names as [|n names IH]; intros d' E; [reflexivity|]. cbn [filter fold_left]. destruct (dget d n) eqn:G.
    - cbn [fold_left]. apply IH. rewrite append_keys. exact E.
    - replace (append_to c d' n) with d'; [apply IH, E|]. unfold append_to. destruct (dget d' n) eqn:G'; [|reflexivity].
      apply dget_None_not_In in G. exfalso. apply G. rewrite <- E. eapply dget_In_keys. exact G'. }
  apply G. reflexivity.
Qed.

Lemma twins_refl c : twins c c.
Proof. left. reflexivity. Qed.

Lemma data_refl d : same_data d d.
Proof. induction d as [|[n l] d IH]; constructor; [|exact IH]. split; [reflexivity|]. cbn. induction l; constructor; [apply twins_refl|assumption]. Qed.

Lemma assign_object k p c : k_data (fst (assign k p (AObj c))) = fold_left (append_to c) (pattern_names p) (k_data k) /\ k_options (fst (assign k p (AObj c))) = k_options k.
Proof. cbn. split; [apply append_absent|reflexivity]. Qed.

Lemma assign_keyword k p s cls : dget (k_options k) s = Some cls ->
  k_data (fst (assign k p (AKey s))) = fold_left (append_to (mk_cond (Auto (k_next k)) cls)) (pattern_names p) (k_data k) /\ k_options (fst (assign k p (AKey s))) = k_options k.
Proof. intros E. cbn. rewrite E. cbn. split; [apply append_absent|reflexivity]. Qed.

Lemma spread_same : forall ops k k', same_data (k_data k) (k_data k') -> k_options k = k_options k' ->
  same_data (k_data (run k ops)) (k_data (run k' (spread ops))).
Proof.
  induction ops as [|o ops IH]; intros k k' H E; [exact H|]. unfold spread. cbn [map concat]. unfold run. rewrite fold_left_app. cbn [fold_left].
  apply IH.
  - destruct o as [p v| |r]; cbn [spread_op fold_left step].
    + set (names := pattern_names p). destruct v as [s|c|].
      * destruct (dget (k_options k) s) as [cls|] eqn:G.
        -- rewrite (proj1 (assign_keyword k p s cls G)). fold names. set (c := mk_cond (Auto (k_next k)) cls). set (d := k_data k) in *. clearbody d.
           revert d k' H E. induction names as [|n names IHn]; intros d k' H E; [exact H|]. cbn [map fold_left step].
           assert (G' : dget (k_options k') s = Some cls) by (rewrite <- E; exact G).
           apply IHn.
           ++ rewrite (proj1 (assign_keyword k' (PSeq [n]) s cls G')). cbn [pattern_names fold_left]. apply same_append; [|exact H].
              right. exists (k_next k), (k_next k'). repeat split.
           ++ rewrite (proj2 (assign_keyword k' (PSeq [n]) s cls G')). exact E.
        -- assert (Z : fst (assign k p (AKey s)) = k) by (cbn; rewrite G; reflexivity). rewrite Z. clear Z.
           revert k' H E. induction names as [|n names IHn]; intros k' H E; [exact H|]. cbn [map fold_left step].
           assert (Z : fst (assign k' (PSeq [n]) (AKey s)) = k') by (cbn; rewrite <- E, G; reflexivity). rewrite Z. apply IHn; assumption.
      * rewrite (proj1 (assign_object k p c)). fold names. set (d := k_data k) in *. clearbody d.
        revert d k' H E. induction names as [|n names IHn]; intros d k' H E; [exact H|]. cbn [map fold_left step]. apply IHn.
        -- rewrite (proj1 (assign_object k' (PSeq [n]) c)). cbn [pattern_names fold_left]. apply same_append; [apply twins_refl|exact H].
        -- rewrite (proj2 (assign_object k' (PSeq [n]) c)). exact E.
      * cbn [assign fst]. revert k' H E. induction names as [|n names IHn]; intros k' H E; [exact H|]. cbn [map fold_left step assign fst]. apply IHn; assumption.
    + unfold clear. cbn [k_data]. clear -H. induction H as [|[n l] [n' l'] d d' [F _] H IH]; [constructor|]. cbn in *. constructor; [split; [exact F|constructor]|exact IH].
    + unfold remove. assert (G : match dget (k_data k) r, dget (k_data k') r with Some _, Some _ | None, None => True | _, _ => False end).
      { clear -H. induction H as [|[n l] [n' l'] d d' [F _] H IH]; [exact I|]. cbn in F. subst n'. cbn [dget]. destruct (String.eqb r n); [exact I|exact IH]. }
      destruct (dget (k_data k) r), (dget (k_data k') r); try contradiction; cbn [fst k_data]; [|exact H].
      clear -H. induction H as [|[n a] [n' a'] d d' [F F'] H IH]; cbn in *; [constructor|]. subst n'. destruct (String.eqb r n); [assumption|constructor; [split; [reflexivity|assumption]|assumption]].
  - rewrite step_options. assert (G : forall l kk, k_options (fold_left step l kk) = k_options kk) by (intros l kk; apply (run_options l kk)). rewrite G. exact E.
Qed.

Lemma twins_class a b : twins a b -> c_class a = c_class b.
Proof. intros [->|(m & n & _ & _ & E)]; [reflexivity|exact E]. Qed.

Lemma same_carries k k' : NoDup (dkeys (k_data k)) -> same_data (k_data k) (k_data k') -> forall r c', carries k' r c' -> exists c, carries k r c /\ twins c c'.
Proof.
  intros N H r c' C'. assert (N' : NoDup (dkeys (k_data k'))) by (rewrite <- (same_keys _ _ H); exact N).
  apply carries_In in C'; [|exact N']. destruct C' as (l' & L' & C').
  assert (G : exists l, In (r, l) (k_data k) /\ Forall2 twins l l').
  { clear -H L'. induction H as [|[n a] [n' a'] d d' [F F'] H IH]; [contradiction|]. cbn in *. subst n'. destruct L' as [E|L'].
    - injection E as -> ->. exists a. split; [left; reflexivity|exact F'].
    - destruct (IH L') as (l & L & F2). exists l. split; [right; exact L|exact F2]. }
  destruct G as (l & L & F). assert (X : exists c, In c l /\ twins c c').
  { clear -F C'. induction F as [|a b l l' Tw F IH]; [contradiction|]. destruct C' as [->|C']; [exists a; split; [left; reflexivity|exact Tw]|].
    destruct (IH C') as (c & I & Tc). exists c. split; [right; exact I|exact Tc]. }
  destruct X as (c & I & Tc). exists c. split; [|exact Tc]. apply carries_In; [exact N|]. exists l. split; assumption.
Qed.

Lemma one_each_distinct k : NoDup (dkeys (k_data k)) -> one_each k -> distinct_regions k.
Proof.
  intros N O a b rs A B Ne. apply attached_regions in A, B. destruct rs as [|r rs]; [congruence|].
  assert (Ca : carries k r a) by (apply regions_of_In; [exact N|rewrite <- A; left; reflexivity]).
  assert (Cb : carries k r b) by (apply regions_of_In; [exact N|rewrite <- B; left; reflexivity]).
  destruct Ca as (l & G & I), Cb as (l' & G' & J). rewrite G in G'. injection G' as <-. specialize (O r l G).
  destruct l as [|x [|y l]]; [contradiction| |cbn in O; lia]. destruct I as [<-|[]], J as [<-|[]]. reflexivity.
Qed.

Lemma twins_sym a b : twins a b -> twins b a.
Proof. intros [->|(m & n & A & B & E)]; [left; reflexivity|]. right. exists n, m. repeat split; congruence. Qed.
Lemma Forall2_len {A B} (P : A -> B -> Prop) l l' : Forall2 P l l' -> length l = length l'.
Proof. intros H. induction H; cbn; congruence. Qed.

(** If no boundary has more than one condition, it makes no difference whether the boundaries are named together or one by
    one: the set-up succeeds just the same and the discrete problem has the same solutions. *)
Theorem c87_together : forall region points vector ready sh regions options ops order order' blf,
  let k := run (init regions options) ops in let k' := run (init regions options) (spread ops) in
  user_objects ops -> (forall r c, carries k r c -> isa (c_class c) "Condition") -> (forall r, In r (dkeys (k_data k)) -> ~ has_bar r) -> one_each k ->
  iteration_order k "Condition" order -> iteration_order k' "Condition" order' ->
  (forall a b, twins a b -> points a = points b /\ ready a = ready b /\ forall y, vector a y = vector b y) ->
  (forall c w y, carries k (region y) c -> ~ isa (c_class c) "Periodic" -> In (w, y) (points c) -> exists a, vector c y = Ok a) ->
  add_terms (boundary_term ready sh) (to_pattern k order) [] = Ok blf ->
  exists blf', add_terms (boundary_term ready sh) (to_pattern k' order') [] = Ok blf' /\
    (forall t, boundary_form (boundary_integrals region points vector blf') t = boundary_form (boundary_integrals region points vector blf) t) /\
    forall s m r ls sc W u, solves s m r (boundary_integrals region points vector blf') ls sc W u <-> solves s m r (boundary_integrals region points vector blf) ls sc W u.
Proof.
  intros region points vector ready sh regions options ops order order' blf k k' Us Cc B One O O' Tw V H.
  assert (Us' : user_objects (spread ops)).
  { intros p c I. unfold spread in I. apply in_concat in I. destruct I as (l & L & I). apply in_map_iff in L. destruct L as (o & <- & L).
    destruct o as [q v| |r]; cbn in I; [|destruct I as [I|[]]; discriminate|destruct I as [I|[]]; discriminate].
    apply in_map_iff in I. destruct I as (n & E & I). injection E as _ ->. apply (Us q c L). }
  assert (W : reachable k) by (exists regions, options, ops; split; [exact Us|reflexivity]).
  assert (W' : reachable k') by (exists regions, options, (spread ops); split; [exact Us'|reflexivity]).
  assert (Sd : same_data (k_data k) (k_data k')) by (apply spread_same; [apply data_refl|reflexivity]).
  destruct (reachable_wf k W) as [N _]. destruct (reachable_wf k' W') as [N' _].
  assert (Back : forall r c', carries k' r c' -> exists c, carries k r c /\ twins c c') by apply (same_carries k k' N Sd).
  assert (Cc' : forall r c, carries k' r c -> isa (c_class c) "Condition").
  { intros r c' C'. destruct (Back r c' C') as (c & C & Tc). rewrite <- (twins_class c c' Tc). apply (Cc r c C). }
  assert (B' : forall r, In r (dkeys (k_data k')) -> ~ has_bar r) by (rewrite <- (same_keys _ _ Sd); exact B).
  assert (One' : one_each k').
  { intros r l' G'. apply dget_Some_In in G'. assert (G : exists l, In (r, l) (k_data k) /\ Forall2 twins l l').
    { clear -Sd G'. induction Sd as [|[n a] [n' a'] d d' [F F'] Sd IH]; [contradiction|]. cbn in *. subst n'. destruct G' as [E|G'].
      - injection E as -> ->. exists a. split; [left; reflexivity|exact F'].
      - destruct (IH G') as (l & L & F2). exists l. split; [right; exact L|exact F2]. }
    destruct G as (l & L & F). rewrite <- (Forall2_len _ _ _ F). apply (One r). apply NoDup_In_dget; assumption. }
  pose proof (one_each_distinct k N One) as D. pose proof (one_each_distinct k' N' One') as D'.
  assert (Ok' : exists blf', add_terms (boundary_term ready sh) (to_pattern k' order') [] = Ok blf').
  { apply add_terms_ok. intros p c' I. apply to_pattern_In in I. destruct I as [I _]. destruct O as [No O]. destruct O' as [No' O'].
    destruct (proj1 (O' c') I) as [_ (r & C')]. destruct (Back r c' C') as (c & C & Tc).
    assert (J : In c order) by (apply O; split; [apply (Cc r c C)|exists r; exact C]).
    assert (Tr : boundary_term ready sh c' = boundary_term ready sh c).
    { unfold boundary_term, is_kind. rewrite (twins_class c c' Tc). rewrite (proj1 (proj2 (Tw c c' Tc))). reflexivity. }
    rewrite Tr. destruct (boundary_term ready sh c) as [t0|e] eqn:E; [eexists; reflexivity|]. exfalso.
    assert (Jp : In (pkey k c, c) (to_pattern k order)) by (rewrite (pattern_list k order N B D No (fun c I => proj2 (proj1 (O c) I))); apply (in_map (fun c => (pkey k c, c))), J).
    destruct (add_terms_err _ _ [] _ _ _ Jp E) as [e' E']. congruence. }
  destruct Ok' as (blf' & H').
  set (acts := fun c => negb (subclass (c_class c) "Periodic")).
  assert (Ac : forall c, acts c = true <-> ~ isa (c_class c) "Periodic") by (intros c; unfold acts; rewrite negb_true_iff, <- subclass_spec; destruct (subclass (c_class c) "Periodic"); split; congruence).
  set (v := fun c y => match vector c y with Ok a => a | Err _ => [] end).
  assert (V1 : forall c w y, carries k (region y) c -> acts c = true -> In (w, y) (points c) -> vector c y = Ok (v c y)).
  { intros c w y C A I. destruct (V c w y C (proj1 (Ac c) A) I) as [a E]. unfold v. rewrite E. reflexivity. }
  assert (V2 : forall c w y, carries k' (region y) c -> acts c = true -> In (w, y) (points c) -> vector c y = Ok (v c y)).
  { intros c' w y C' A I. destruct (Back _ c' C') as (c & C & Tc). destruct (Tw c c' Tc) as (Pq & _ & Vq).
    assert (A' : acts c = true) by (unfold acts in *; rewrite (twins_class c c' Tc); exact A).
    assert (I' : In (w, y) (points c)) by (rewrite Pq; exact I). destruct (V c w y C (proj1 (Ac c) A') I') as [a E].
    unfold v. rewrite <- Vq, E. reflexivity. }
  assert (Eq : forall t, boundary_form (boundary_integrals region points vector blf') t = boundary_form (boundary_integrals region points vector blf) t).
  { intros t. rewrite (c87_boundary region points vector v ready sh k order blf t acts W O Cc B D Ac V1 H).
    rewrite (c87_boundary region points vector v ready sh k' order' blf' t acts W' O' Cc' B' D' Ac V2 H').
    f_equal. unfold by_region. assert (L1 : forall r l, In (r, l) (k_data k) -> (length l <= 1)%nat) by (intros r l I; apply (One r), NoDup_In_dget; assumption).
    clear -Sd L1 Tw. induction Sd as [|[n a] [n' a'] d d' [F F'] Sd IH]; [reflexivity|]. cbn [sum_over fst snd] in *. subst n'.
    rewrite IH by (intros r l I; apply (L1 r l); right; exact I). f_equal. pose proof (L1 n a (or_introl eq_refl)) as L.
    destruct F' as [|c c' a a' Tc F']; [reflexivity|]. destruct F' as [|? ? ? ? ? ?]; [|cbn in L; lia].
    assert (A : acts c' = acts c) by (unfold acts; rewrite (twins_class c c' Tc); reflexivity).
    cbn [filter]. rewrite A. destruct (acts c); [|reflexivity]. cbn [nodup in_dec list_rec list_rect sum_over]. destruct (Tw c c' Tc) as (Pq & _ & Vq). rewrite Pq. f_equal. apply weighted_ext.
    intros w y _. destruct (String.eqb (region y) n); [|reflexivity]. unfold v. rewrite Vq. reflexivity. }
  exists blf'. split; [exact H'|]. split; [exact Eq|]. intros s m r ls sc Wt u. unfold solves, weak_form.
  split; intros Hs t It; specialize (Hs t It); [rewrite Eq in Hs|rewrite Eq]; exact Hs.
Qed.
Print Assumptions c87_together.

(** ** Several conditions on one boundary *)

Definition two_ends (y : nat) : string := match y with 0%nat => "a" | _ => "b" end.
Definition end_points (c : cond) : rule := [(1, 0%nat); (1, 1%nat)].
Definition marked (c : cond) (y : nat) : result (list R) := Ok [if is_kind c "FarField" then 1 else 2].
Definition one_test : test := mk_test (fun _ => [1]) (fun _ => mk_matrix 1 1 [0]) (fun _ => [1]).

Lemma listed k order : NoDup order -> (forall c, In c order -> isa (c_class c) "Condition" /\ exists r, carries k r c) ->
  (forall r l c, In (r, l) (k_data k) -> In c l -> In c order) -> iteration_order k "Condition" order.
Proof.
  intros N A B. split; [exact N|]. intros c. split; [apply A|]. intros [_ (r & l & G & I)]. apply dget_Some_In in G. apply (B r l c G I).
Qed.

(** Two conditions on the same boundary: which of them acts depends on the iteration order of a set. *)
Theorem c87_same_regions_refuted : exists ops k order order' blf blf',
  k = run (init ["a"; "b"]%string bcs_options) ops /\ iteration_order k "Condition" order /\ iteration_order k "Condition" order' /\
  add_terms (boundary_term (fun _ => true) false) (to_pattern k order) [] = Ok blf /\ add_terms (boundary_term (fun _ => true) false) (to_pattern k order') [] = Ok blf' /\
  boundary_form (boundary_integrals two_ends end_points marked blf) one_test = Ok 2 /\ boundary_form (boundary_integrals two_ends end_points marked blf') one_test = Ok 1.
Proof.
  set (ops := [Assign (PStr "a") (AKey "farfield"); Assign (PStr "a") (AKey "outflow")]).
  set (f := mk_cond (Auto 0) "FarField"). set (o := mk_cond (Auto 1) "Outflow").
  set (k := run (init ["a"; "b"]%string bcs_options) ops).
  assert (Dk : k_data k = [("a"%string, [f; o]); ("b"%string, [])]) by (vm_compute; reflexivity).
  assert (Ca : forall c, c = f \/ c = o -> isa (c_class c) "Condition" /\ exists r, carries k r c).
  { intros c [->| ->]; (split; [apply subclass_spec; vm_compute; reflexivity|]); exists "a"%string; exists [f; o]; rewrite Dk; (split; [reflexivity|]); [left|right; left]; reflexivity. }
  assert (Fo : f <> o) by (unfold f, o; discriminate).
  exists ops, k, [f; o], [o; f]. eexists. eexists. split; [reflexivity|].
  split. { apply listed; [repeat constructor; cbn; intuition congruence| |]; [intros c [<-|[<-|[]]]; apply Ca; auto|].
    intros r l c I. rewrite Dk in I. destruct I as [I|[I|[]]]; injection I as <- <-; cbn; tauto. }
  split. { apply listed; [repeat constructor; cbn; intuition congruence| |]; [intros c [<-|[<-|[]]]; apply Ca; auto|].
    intros r l c I. rewrite Dk in I. destruct I as [I|[I|[]]]; injection I as <- <-; cbn; tauto. }
  assert (P1 : to_pattern k [f; o] = [("a"%string, o)]) by (vm_compute; reflexivity).
  assert (P2 : to_pattern k [o; f] = [("a"%string, f)]) by (vm_compute; reflexivity).
  rewrite P1, P2. split; [reflexivity|]. split; [reflexivity|].
  assert (Sp : split_bar "a" = ["a"%string]) by reflexivity.
  split; unfold boundary_integrals; cbn [map snd boundary_integral boundary_form b_rule b_vector definedon]; unfold definedon, end_points; cbn; f_equal; ring.
Qed.
Print Assumptions c87_same_regions_refuted.

(** Two conditions that share a boundary: named together both act on it; named one by one one of them is lost. *)
Theorem c87_together_refuted : exists ops, let k := run (init ["a"; "b"]%string bcs_options) ops in let k' := run (init ["a"; "b"]%string bcs_options) (spread ops) in
  exists order order' blf blf', iteration_order k "Condition" order /\ iteration_order k' "Condition" order' /\
  add_terms (boundary_term (fun _ => true) false) (to_pattern k order) [] = Ok blf /\ add_terms (boundary_term (fun _ => true) false) (to_pattern k' order') [] = Ok blf' /\
  boundary_form (boundary_integrals two_ends end_points marked blf) one_test = Ok 4 /\ boundary_form (boundary_integrals two_ends end_points marked blf') one_test = Ok 3.
Proof.
  exists [Assign (PStr "a|b") (AKey "farfield"); Assign (PStr "a") (AKey "outflow")]. intros k k'.
  set (f := mk_cond (Auto 0) "FarField"). set (o := mk_cond (Auto 1) "Outflow").
  set (f' := mk_cond (Auto 1) "FarField"). set (o' := mk_cond (Auto 2) "Outflow").
  assert (Dk : k_data k = [("a"%string, [f; o]); ("b"%string, [f])]) by (vm_compute; reflexivity).
  assert (Dk' : k_data k' = [("a"%string, [f; o']); ("b"%string, [f'])]) by (vm_compute; reflexivity).
  exists [f; o], [f; f'; o']. eexists. eexists.
  split. { apply listed; [repeat constructor; cbn; unfold f, o; intuition discriminate| |].
    - intros c [<-|[<-|[]]]; (split; [apply subclass_spec; vm_compute; reflexivity|]); exists "a"%string; exists [f; o]; rewrite Dk; (split; [reflexivity|]); cbn; auto.
    - intros r l c I. rewrite Dk in I. destruct I as [I|[I|[]]]; injection I as <- <-; cbn; tauto. }
  split. { apply listed; [repeat constructor; cbn; unfold f, f', o'; intuition discriminate| |].
    - intros c [<-|[<-|[<-|[]]]]; (split; [apply subclass_spec; vm_compute; reflexivity|]); [exists "a"%string; exists [f; o']|exists "b"%string; exists [f']|exists "a"%string; exists [f; o']]; rewrite Dk'; (split; [reflexivity|]); cbn; auto.
    - intros r l c I. rewrite Dk' in I. destruct I as [I|[I|[]]]; injection I as <- <-; cbn; tauto. }
  assert (P1 : to_pattern k [f; o] = [("a|b"%string, f); ("a"%string, o)]) by (vm_compute; reflexivity).
  assert (P2 : to_pattern k' [f; f'; o'] = [("a"%string, o'); ("b"%string, f')]) by (vm_compute; reflexivity).
  rewrite P1, P2. split; [reflexivity|]. split; [reflexivity|].
  split; unfold boundary_integrals; cbn [map snd boundary_integral boundary_form b_rule b_vector definedon]; unfold definedon, end_points; cbn; f_equal; ring.
Qed.
Print Assumptions c87_together_refuted.

(** Both ends get a far field, by one or by two statements: both give two integrals over one end each. *)
Example c87_example :
  let ops := [Assign (PStr "a|b") (AKey "farfield")] in let k := run (init ["a"; "b"]%string bcs_options) ops in let k' := run (init ["a"; "b"]%string bcs_options) (spread ops) in
  let f := mk_cond (Auto 0) "FarField" in let f' := mk_cond (Auto 1) "FarField" in
  one_each k /\ iteration_order k "Condition" [f] /\ iteration_order k' "Condition" [f'; f] /\
  to_pattern k [f] = [("a|b"%string, f)] /\ to_pattern k' [f'; f] = [("b"%string, f'); ("a"%string, f)] /\
  by_region two_ends end_points (fun _ => true) (fun c y => inner [if is_kind c "FarField" then 1 else 2] (tVhat one_test y)) k = 2.
Proof.
  intros ops k k' f f'.
  assert (Dk : k_data k = [("a"%string, [f]); ("b"%string, [f])]) by (vm_compute; reflexivity).
  assert (Dk' : k_data k' = [("a"%string, [f]); ("b"%string, [f'])]) by (vm_compute; reflexivity).
  split. { intros r l G. apply dget_Some_In in G. rewrite Dk in G. destruct G as [G|[G|[]]]; injection G as _ <-; cbn; lia. }
  split. { apply listed; [repeat constructor; intros []| |].
    - intros c [<-|[]]. split; [apply subclass_spec; vm_compute; reflexivity|]. exists "a"%string, [f]. rewrite Dk. split; [reflexivity|left; reflexivity].
    - intros r l c I. rewrite Dk in I. destruct I as [I|[I|[]]]; injection I as <- <-; cbn; tauto. }
  split. { apply listed; [repeat constructor; cbn; unfold f, f'; intuition discriminate| |].
    - intros c [<-|[<-|[]]]; (split; [apply subclass_spec; vm_compute; reflexivity|]); [exists "b"%string, [f']|exists "a"%string, [f]]; rewrite Dk'; (split; [reflexivity|left; reflexivity]).
    - intros r l c I. rewrite Dk' in I. destruct I as [I|[I|[]]]; injection I as <- <-; cbn; tauto. }
  split; [vm_compute; reflexivity|]. split; [vm_compute; reflexivity|].
  unfold by_region. rewrite Dk. unfold end_points, two_ends. cbn. ring.
Qed.

(** A sponge layer at the end of a channel with an initial state everywhere. *)
Example c87_sponge_example :
  let k := run (init ["air"; "end"]%string dcs_options) [Assign (PStr "air|end") (AKey "initial"); Assign (PStr "end") (AKey "sponge_layer")] in
  let i := mk_cond (Auto 0) "Initial" in let s := mk_cond (Auto 1) "SpongeLayer" in
  distinct_regions k /\ iteration_order k "Condition" [s; i] /\
  add_terms (domain_term (fun _ => true)) (to_pattern k [s; i]) [] = Ok [("sponge_layer_end"%string, (FSponge, "end"%string, s))].
Proof.
  intros k i s.
  assert (Dk : k_data k = [("air"%string, [i]); ("end"%string, [i; s])]) by (vm_compute; reflexivity).
  split.
  { intros a b rs A B Ne. apply attached_regions in A, B.
    assert (Cs : forall c, rs = regions_of (k_data k) c -> c = i \/ c = s).
    { intros c E. destruct (cond_dec c i) as [->|Ni]; [left; reflexivity|]. destruct (cond_dec c s) as [->|Ns]; [right; reflexivity|]. exfalso. apply Ne. rewrite E, Dk. unfold regions_of. cbn [filter existsb snd].
      destruct (cond_eqb c i) eqn:X; [apply cond_eqb_spec in X; contradiction|]. destruct (cond_eqb c s) eqn:Y; [apply cond_eqb_spec in Y; contradiction|]. reflexivity. }
    destruct (Cs a A) as [->| ->], (Cs b B) as [->| ->]; try reflexivity; rewrite A in B; rewrite Dk in B; vm_compute in B; discriminate. }
  split. { apply listed; [repeat constructor; cbn; unfold s, i; intuition discriminate| |].
    - intros c [<-|[<-|[]]]; (split; [apply subclass_spec; vm_compute; reflexivity|]); exists "end"%string, [i; s]; rewrite Dk; (split; [reflexivity|cbn; auto]).
    - intros r l c I. rewrite Dk in I. destruct I as [I|[I|[]]]; injection I as <- <-; cbn; tauto. }
  vm_compute. reflexivity.
Qed.
