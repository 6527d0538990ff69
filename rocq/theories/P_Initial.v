(** C71: what a simulation starts from. *)
From Coq Require Import Reals Lra String List Arith Bool Lia Permutation.
From Verif Require Import Base Dict M_Bla M_Flow M_Formulation M_Conditions S_Conditions L_Conditions M_Weak S_Weak L_Weak S_Flow S_Chars S_Formulation L_Formulation P_Eos P_Unknowns M_Project S_Project L_Project P_Project.
Import ListNotations.
Open Scope R_scope.
Open Scope list_scope.

(** Lemmas. *)

(** The physical states are a convex cone. *)
Lemma physical_combination d a b U V W : 0 < a -> 0 <= b -> physical d U -> physical d V -> length W = (d + 2)%nat ->
  (forall k, (k < d + 2)%nat -> nth k W 0 = a * nth k U 0 + b * nth k V 0) -> physical d W.
Proof.
  intros A B (LU & RU & PU) (LV & RV & PV) LW E.
  set (r := nth 0 U 0) in *. set (q := nth 0 V 0) in *. set (e := nth (d + 1) U 0) in *. set (f := nth (d + 1) V 0) in *.
  set (M := total d (fun j => nth (j + 1) U 0 ^ 2)) in *. set (N := total d (fun j => nth (j + 1) V 0 ^ 2)) in *.
  set (X := total d (fun j => nth (j + 1) U 0 * nth (j + 1) V 0)).
  assert (C : 0 <= q ^ 2 * M + r ^ 2 * N - 2 * r * q * X).
  { replace (q ^ 2 * M + r ^ 2 * N - 2 * r * q * X) with (total d (fun j => (q * nth (j + 1) U 0 - r * nth (j + 1) V 0) ^ 2)).
    - clear. induction d as [|d IH]; cbn [total]; [apply Rle_refl|apply Rplus_le_le_0_compat; [exact IH|apply pow2_ge_0]].
    - unfold M, N, X. transitivity (total d (fun j => q ^ 2 * nth (j + 1) U 0 ^ 2 + (r ^ 2 * nth (j + 1) V 0 ^ 2 + - (2 * r * q) * (nth (j + 1) U 0 * nth (j + 1) V 0)))).
      + apply total_ext. intros j _. ring.
      + rewrite !total_plus, !total_scale. ring. }
  assert (RQ : 0 < r * q) by (apply Rmult_lt_0_compat; assumption).
  assert (XB : X < q * e + r * f).
  { assert (A1 : q ^ 2 * M < q ^ 2 * (2 * r * e)) by (apply Rmult_lt_compat_l; [apply pow_lt; exact RV|exact PU]).
    assert (A2 : r ^ 2 * N < r ^ 2 * (2 * q * f)) by (apply Rmult_lt_compat_l; [apply pow_lt; exact RU|exact PV]).
    apply Rmult_lt_reg_l with (2 * (r * q)); [lra|]. lra. }
  assert (E0 : nth 0 W 0 = a * r + b * q) by (apply (E 0%nat); lia).
  assert (Ee : nth (d + 1) W 0 = a * e + b * f) by (apply (E (d + 1)%nat); lia).
  assert (AR : 0 < a * r) by (apply Rmult_lt_0_compat; assumption). assert (BQ : 0 <= b * q) by (apply Rmult_le_pos; lra).
  split; [exact LW|]. split; [rewrite E0; lra|].
  rewrite (total_ext _ (fun j => a ^ 2 * nth (j + 1) U 0 ^ 2 + (2 * a * b * (nth (j + 1) U 0 * nth (j + 1) V 0) + b ^ 2 * nth (j + 1) V 0 ^ 2)))
    by (intros j J; rewrite (E (j + 1)%nat) by lia; ring).
  rewrite !total_plus, !total_scale. fold M N X. rewrite E0, Ee.
  assert (T1 : a ^ 2 * M < a ^ 2 * (2 * r * e)) by (apply Rmult_lt_compat_l; [apply pow_lt; exact A|exact PU]).
  assert (T2 : b ^ 2 * N <= b ^ 2 * (2 * q * f)) by (apply Rmult_le_compat_l; [apply pow2_ge_0|lra]).
  assert (AB : 0 <= 2 * a * b) by (apply Rmult_le_pos; lra).
  assert (T3 : 2 * a * b * X <= 2 * a * b * (q * e + r * f)) by (apply Rmult_le_compat_l; [exact AB|lra]).
  replace (2 * (a * r + b * q) * (a * e + b * f)) with (a ^ 2 * (2 * r * e) + (2 * a * b * (q * e + r * f) + b ^ 2 * (2 * q * f))) by ring. lra.
Qed.

Definition weighted_vector (n : nat) (q : rule) (U : nat -> list R) : list R := map (fun k => weighted q (fun x => nth k (U x) 0)) (seq 0 n).
Lemma weighted_vector_nth n q U k : (k < n)%nat -> nth k (weighted_vector n q U) 0 = weighted q (fun x => nth k (U x) 0).
Proof.
  intros K. unfold weighted_vector. set (g := fun k => weighted q (fun x => nth k (U x) 0)). rewrite (nth_indep _ 0 (g 0%nat)) by (rewrite map_length, seq_length; exact K).
  rewrite (map_nth g), seq_nth by exact K. reflexivity.
Qed.

Lemma physical_weighted d q U : q <> [] -> (forall w x, In (w, x) q -> 0 < w /\ physical d (U x)) -> physical d (weighted_vector (d + 2) q U).
Proof.
  induction q as [|[w x] q IH]; intros N P; [contradiction|]. destruct (P w x (or_introl eq_refl)) as [W Px].
  assert (Len : forall r, length (weighted_vector (d + 2) r U) = (d + 2)%nat) by (intros r; unfold weighted_vector; rewrite map_length, seq_length; reflexivity).
  destruct q as [|y q].
  - apply (physical_combination d w 0 (U x) (U x)); [exact W|lra|exact Px|exact Px|apply Len|]. intros k K. rewrite weighted_vector_nth by exact K. cbn [weighted]. ring.
  - apply (physical_combination d w 1 (U x) (weighted_vector (d + 2) (y :: q) U)); [exact W|lra|exact Px|apply IH; [discriminate|intros w' x' I; apply P; right; exact I]|apply Len|].
    intros k K. rewrite !weighted_vector_nth by exact K. change (weighted ((w, x) :: y :: q) (fun x0 => nth k (U x0) 0)) with (w * nth k (U x) 0 + weighted (y :: q) (fun x0 => nth k (U x0) 0)). ring.
Qed.

Lemma physical_ext d U V : physical d U -> length V = (d + 2)%nat -> (forall k, (k < d + 2)%nat -> nth k V 0 = nth k U 0) -> physical d V.
Proof. intros P L E. apply (physical_combination d 1 0 U U); [lra|lra|exact P|exact P|exact L|]. intros k K. rewrite (E k K). ring. Qed.

Lemma list_ext n (a b : list R) : length a = n -> length b = n -> (forall k, (k < n)%nat -> nth k a 0 = nth k b 0) -> a = b.
Proof. intros A B E. apply (nth_ext a b 0 0); [congruence|]. intros k K. apply E. lia. Qed.

(** ** The initial vector *)

(** Every element gets the state of its domain, whatever fields describe it. *)
Theorem c71_vector : forall name cfg items e x fields st, 1 < s_gamma cfg -> valid st -> disjoint name items -> prescribed name items e fields ->
  describes (s_gamma cfg) st (fields x) ->
  determined density_sources (fields x) -> determined momentum_sources (fields x) -> determined energy_sources (fields x) ->
  initial_vector name cfg items e x = Ok (conservative_list (s_gamma cfg) st).
Proof.
  intros name cfg items e x fields st G V Dj Pr De D1 D2 D3.
  assert (H : initial_vector name cfg items e x = conservative_vector cfg (fields x)).
  { induction items as [|[p f] items IH]; [destruct Pr as (p & [] & _)|]. cbn [initial_vector]. destruct (in_region name p e) eqn:I.
    - apply in_region_covered in I. rewrite (Dj e f fields); [reflexivity|exists p; split; [left; reflexivity|exact I]|exact Pr].
    - apply IH.
      + intros e' a b (pa & Ia & Ca) (pb & Ib & Cb). apply (Dj e'); [exists pa|exists pb]; (split; [right; assumption|assumption]).
      + destruct Pr as (p' & [E|J] & C); [injection E as -> _; apply in_region_covered in C; congruence|exists p'; split; assumption]. }
  rewrite H. destruct (c57_vector cfg st (fields x) G V De) as (A & B & _). destruct (proj2 B (conj D1 (conj D2 D3))) as [w E]. rewrite E. f_equal. exact (A w E).
Qed.
Print Assumptions c71_vector.

(** A domain without an initial condition starts from nothing. *)
Theorem c71_missing : forall name cfg items e x, (forall fields, ~ prescribed name items e fields) -> initial_vector name cfg items e x = Ok (repeat 0 (s_dim cfg + 2)).
Proof.
  intros name cfg items e x N. induction items as [|[p f] items IH]; [reflexivity|]. cbn [initial_vector]. destruct (in_region name p e) eqn:I.
  - apply in_region_covered in I. destruct (N f). exists p. split; [left; reflexivity|exact I].
  - apply IH. intros g (p' & J & C). apply (N g). exists p'. split; [right; exact J|exact C].
Qed.
Print Assumptions c71_missing.

(** ** Elements and facets *)
Section Started.
Variable cell : nat -> nat.
Variable shape : nat -> nat -> (nat -> R) -> Prop.
Hypothesis Poly : polynomials cell shape.
Variables (order : nat -> option nat) (q q' : rule) (n : nat) (U u : nat -> list R).
Hypothesis St : started n (fun k => mk_system (cell_space cell shape order) q q' (fun x => nth k (U x) 0)) u.
Hypothesis Re : forall e p, order e = Some p -> resolves cell shape q q' e p.

Let Ex e p (O : order e = Some p) : exact cell shape q q' e p := proj1 (Re e p O).

Lemma started_content e p k : (k < n)%nat -> order e = Some p -> content (inside cell e q) u k = content (inside cell e q') U k.
Proof. intros K O. destruct St as [_ S1]. exact (solution_content cell shape Poly order q q' _ _ (S1 k K) e p O). Qed.

Lemma started_total k : (k < n)%nat -> (forall e, order e <> None) -> content q u k = content q' U k.
Proof.
  intros K All. destruct St as [_ S1]. destruct (S1 k K) as [_ E]. specialize (E (fun _ => 1)). cbn [y_space y_blf y_lf y_rhs] in E. rewrite !quad_weighted in E.
  unfold content. rewrite (weighted_ext q _ (fun x => nth k (u x) 0 * 1)) by (intros; ring). rewrite (weighted_ext q' _ (fun x => nth k (U x) 0 * 1)) by (intros; ring). apply E.
  intros e. destruct (order e) as [p|] eqn:O; [apply (shape_constant cell shape Poly)|destruct (All e O)].
Qed.

Lemma started_exact e p k : (k < n)%nat -> order e = Some p -> (exists f, shape e p f /\ forall w x, In (w, x) (inside cell e q') -> nth k (U x) 0 = f x) ->
  exists f, shape e p f /\ (forall w x, In (w, x) (inside cell e q') -> nth k (U x) 0 = f x) /\ forall x, cell x = e -> nth k (u x) 0 = f x.
Proof.
  intros K O (f & F & E). exists f. split; [exact F|]. split; [exact E|]. destruct St as [_ S1]. specialize (S1 k K). destruct (Re e p O) as (_ & [Pos _] & Un).
  apply (agree_everywhere cell shape Poly q' e p (fun x => nth k (u x) 0) f Un (solution_shape cell shape order q q' _ _ S1 e p O) F).
  pose proof (solution_best cell shape Poly order q q' _ _ S1 Ex e p f O F) as B. cbn beta in B.
  assert (Z : distance (inside cell e q') (fun x => nth k (u x) 0) f = 0).
  { pose proof (distance_pos (inside cell e q') (fun x => nth k (U x) 0) (fun x => nth k (u x) 0) Pos) as P1. pose proof (distance_pos (inside cell e q') (fun x => nth k (u x) 0) f Pos) as P2.
    assert (D0 : weighted (inside cell e q') (fun x => (nth k (U x) 0 - f x) * (nth k (U x) 0 - f x)) = 0) by (apply weighted_zero; intros w x I; rewrite (E w x I); ring).
    rewrite D0 in B. unfold distance in *.
    rewrite (weighted_ext _ (fun x => (nth k (U x) 0 - nth k (u x) 0) ^ 2) (fun x => (nth k (U x) 0 - nth k (u x) 0) * (nth k (U x) 0 - nth k (u x) 0))) in P1 by (intros; ring).
    rewrite (weighted_ext _ (fun x => (nth k (u x) 0 - f x) ^ 2) (fun x => (nth k (u x) 0 - f x) * (nth k (u x) 0 - f x))) in P2 |- * by (intros; ring). lra. }
  exact (distance_zero _ _ _ Pos Z).
Qed.

Lemma started_uniform e p v : order e = Some p -> length v = n -> (forall w x, In (w, x) (inside cell e q') -> U x = v) -> forall x, cell x = e -> u x = v.
Proof.
  intros O L E x X. apply (list_ext n); [apply St|exact L|]. intros k K.
  destruct (started_exact e p k K O) as (f & F & F1 & F2).
  { exists (fun _ => nth k v 0). split; [apply (shape_constant cell shape Poly)|]. intros w y I. rewrite (E w y I). reflexivity. }
  destruct (Re e p O) as (_ & [Pos _] & Un). rewrite (F2 x X).
  apply (agree_everywhere cell shape Poly q' e p f (fun _ => nth k v 0) Un F (shape_constant cell shape Poly e p _)); [|exact X].
  intros w y I. rewrite <- (F1 w y I), (E w y I). reflexivity.
Qed.

Lemma started_physical e d : n = (d + 2)%nat -> order e = Some 0%nat -> (forall w x, In (w, x) (inside cell e q') -> physical d (U x)) -> forall x, cell x = e -> physical d (u x).
Proof.
  intros N O P x X. destruct (Re e 0%nat O) as (_ & [Pos NE] & _). pose proof (weights_pos _ Pos NE) as W.
  pose proof (physical_weighted d (inside cell e q') U NE (fun w y I => conj (Pos w y I) (P w y I))) as PW.
  apply (physical_combination d (/ weighted (inside cell e q') (fun _ => 1)) 0 (weighted_vector (d + 2) (inside cell e q') U) (weighted_vector (d + 2) (inside cell e q') U));
    [apply Rinv_0_lt_compat, W|lra|exact PW|exact PW|rewrite (proj1 St x); exact N|].
  intros k K. rewrite weighted_vector_nth by exact K. rewrite <- N in K. destruct St as [_ S1].
  rewrite (solution_mean cell shape Poly order q q' _ _ (S1 k K) Ex e O W x X). unfold Rdiv. ring.
Qed.
End Started.

(** The projection keeps mass, momentum and energy of every element, and of the whole mesh. *)
Theorem c71_content : forall elem shape order vol vol' n U u, polynomials elem shape -> started n (initial_element_system elem shape order vol vol' U) u ->
  (forall e p k, order e = Some p -> (k < n)%nat -> content (inside elem e vol) u k = content (inside elem e vol') U k) /\
  ((forall e, order e <> None) -> forall k, (k < n)%nat -> content vol u k = content vol' U k).
Proof.
  intros elem shape order vol vol' n U u Poly St. split.
  - intros e p k O K. exact (started_content elem shape Poly order vol vol' n U u St e p k K O).
  - intros All k K. exact (started_total elem shape Poly order vol vol' n U u St k K All).
Qed.
Print Assumptions c71_content.

(** An initial state that is a polynomial of the order of the element is taken over exactly, on elements and on facets. *)
Theorem c71_exact : forall cell shape order q q' n U u e p k f, polynomials cell shape -> (forall e p, order e = Some p -> resolves cell shape q q' e p) ->
  (started n (initial_element_system cell shape order q q' U) u \/ started n (initial_facet_system cell shape order q q' U) u) ->
  order e = Some p -> (k < n)%nat -> shape e p f -> (forall x, cell x = e -> nth k (U x) 0 = f x) -> forall x, cell x = e -> nth k (u x) 0 = nth k (U x) 0.
Proof.
  intros cell shape order q q' n U u e p k f Poly Re St O K F E x X.
  assert (St' : started n (fun k => mk_system (cell_space cell shape order) q q' (fun x => nth k (U x) 0)) u) by (destruct St as [St|St]; exact St).
  destruct (started_exact cell shape Poly order q q' n U u St' Re e p k K O) as (g & G & G1 & G2).
  { exists f. split; [exact F|]. intros w y I. apply E. apply in_inside in I. apply I. }
  rewrite (G2 x X), (E x X). destruct (Re e p O) as (_ & _ & Un). apply (agree_everywhere cell shape Poly q' e p g f Un G F); [|exact X].
  intros w y I. rewrite <- (G1 w y I). apply E. apply in_inside in I. apply I.
Qed.
Print Assumptions c71_exact.

(** A uniform flow prescribed in all domains is the initial flow on all elements and facets. *)
Theorem c71_uniform : forall name cfg items elem facet shape fshape order forder vol vol' bnd bnd' U uU uUhat st, 1 < s_gamma cfg -> valid st -> length (st_u st) = s_dim cfg ->
  polynomials elem shape -> polynomials facet fshape ->
  (forall e p, order e = Some p -> resolves elem shape vol vol' e p) -> (forall e p, forder e = Some p -> resolves facet fshape bnd bnd' e p) ->
  disjoint name items -> (forall e, exists fields, prescribed name items e fields) ->
  (forall p fields, In (p, fields) items -> forall x, describes (s_gamma cfg) st (fields x) /\ determined density_sources (fields x) /\ determined momentum_sources (fields x) /\ determined energy_sources (fields x)) ->
  (forall x, initial_vector name cfg items (elem x) x = Ok (U x)) ->
  started (s_dim cfg + 2) (initial_element_system elem shape order vol vol' U) uU -> started (s_dim cfg + 2) (initial_facet_system facet fshape forder bnd bnd' U) uUhat ->
  (forall x, order (elem x) <> None -> uU x = conservative_list (s_gamma cfg) st) /\ (forall y, forder (facet y) <> None -> uUhat y = conservative_list (s_gamma cfg) st).
Proof.
  intros name cfg items elem facet shape fshape order forder vol vol' bnd bnd' U uU uUhat st G V Dim P1 P2 R1 R2 Dj Cov Des HU S1 S2.
  assert (E : forall x, U x = conservative_list (s_gamma cfg) st).
  { intros x. destruct (Cov (elem x)) as [fields Pr]. pose proof Pr as (p & I & _). destruct (Des p fields I x) as (D & D1 & D2 & D3).
    pose proof (c71_vector name cfg items (elem x) x fields st G V Dj Pr D D1 D2 D3) as Q. rewrite HU in Q. injection Q. auto. }
  assert (L : length (conservative_list (s_gamma cfg) st) = (s_dim cfg + 2)%nat) by (unfold conservative_list, q_rho_u, vscale; cbn [length]; rewrite app_length, map_length, Dim; cbn; lia).
  split.
  - intros x O. destruct (order (elem x)) as [p|] eqn:Q; [|contradiction]. exact (started_uniform elem shape P1 order vol vol' _ U uU S1 R1 (elem x) p _ Q L (fun _ y _ => E y) x eq_refl).
  - intros y O. destruct (forder (facet y)) as [p|] eqn:Q; [|contradiction]. exact (started_uniform facet fshape P2 forder bnd bnd' _ U uUhat S2 R2 (facet y) p _ Q L (fun _ z _ => E z) y eq_refl).
Qed.
Print Assumptions c71_uniform.

(** A facet between two elements starts from the average of both sides (projected to the polynomials of the facet). *)
Theorem c71_interface : forall facet fshape forder bnd bnd' twin n U u, polynomials facet fshape -> (forall e p, forder e = Some p -> resolves facet fshape bnd bnd' e p) ->
  single_valued facet fshape twin -> two_sided bnd' twin -> started n (initial_facet_system facet fshape forder bnd bnd' U) u ->
  (forall e p k f, forder e = Some p -> (k < n)%nat -> fshape e p f -> (forall y, facet y = e -> (nth k (U y) 0 + nth k (U (twin y)) 0) / 2 = f y) ->
     forall y, facet y = e -> nth k (u y) 0 = f y) /\
  (forall e p a b, forder e = Some p -> length a = n -> length b = n -> (forall y, facet y = e -> (U y = a /\ U (twin y) = b) \/ (U y = b /\ U (twin y) = a)) ->
     forall y k, facet y = e -> (k < n)%nat -> nth k (u y) 0 = (nth k a 0 + nth k b 0) / 2).
Proof.
  intros facet fshape forder bnd bnd' twin n U u Poly Re [Sf Sv] Ts [Len St].
  set (A := fun y => map (fun k => (nth k (U y) 0 + nth k (U (twin y)) 0) / 2) (seq 0 n)).
  assert (EA : forall y k, (k < n)%nat -> nth k (A y) 0 = (nth k (U y) 0 + nth k (U (twin y)) 0) / 2).
  { intros y k K. unfold A. set (g := fun k => (nth k (U y) 0 + nth k (U (twin y)) 0) / 2). rewrite (nth_indep _ 0 (g 0%nat)) by (rewrite map_length, seq_length; exact K).
    rewrite (map_nth g), seq_nth by exact K. reflexivity. }
  assert (St' : started n (initial_facet_system facet fshape forder bnd bnd' A) u).
  { split; [exact Len|]. intros k K. destruct (St k K) as [W H]. split; [exact W|]. intros v V. specialize (H v V). unfold initial_facet_system in *. cbn [y_blf y_lf y_rhs y_space] in *. rewrite H, !quad_weighted. clear H.
    assert (Vt : forall y, v (twin y) = v y).
    { intros y. specialize (V (facet y)). destruct (forder (facet y)) as [p|]; [exact (Sv (facet y) p v y V eq_refl)|]. rewrite (V y eq_refl). apply V. apply Sf. }
    assert (T : weighted bnd' (fun y => nth k (U y) 0 * v y) = weighted bnd' (fun y => nth k (U (twin y)) 0 * v y)).
    { rewrite <- (weighted_permutation _ _ (fun y => nth k (U y) 0 * v y) Ts), weighted_map. apply weighted_ext. intros w y _. rewrite Vt. reflexivity. }
    rewrite (weighted_ext bnd' (fun y => nth k (A y) 0 * v y) (fun y => / 2 * (nth k (U y) 0 * v y) + / 2 * (nth k (U (twin y)) 0 * v y))) by (intros w y _; rewrite EA by exact K; field).
    rewrite weighted_plus, !weighted_scale, <- T. field. }
  assert (C1 : forall e p k f, forder e = Some p -> (k < n)%nat -> fshape e p f -> (forall y, facet y = e -> (nth k (U y) 0 + nth k (U (twin y)) 0) / 2 = f y) ->
     forall y, facet y = e -> nth k (u y) 0 = f y).
  { intros e p k f O K F E y Y. rewrite (c71_exact facet fshape forder bnd bnd' n A u e p k f Poly Re (or_intror St') O K F (fun z Z => eq_trans (EA z k K) (E z Z)) y Y), EA by exact K. exact (E y Y). }
  split; [exact C1|]. intros e p a b O La Lb E y k Y K. apply (C1 e p k (fun _ => (nth k a 0 + nth k b 0) / 2) O K (shape_constant facet fshape Poly e p _)); [|exact Y].
  intros z Z. destruct (E z Z) as [[-> ->]|[-> ->]]; field.
Qed.
Print Assumptions c71_interface.

(** With order 0 the initial flow has positive density and pressure if the prescribed states have. *)
Theorem c71_physical : forall cell shape order q q' d U u e, polynomials cell shape -> (forall e p, order e = Some p -> resolves cell shape q q' e p) ->
  (started (d + 2) (initial_element_system cell shape order q q' U) u \/ started (d + 2) (initial_facet_system cell shape order q q' U) u) ->
  order e = Some 0%nat -> (forall w x, In (w, x) (inside cell e q') -> physical d (U x)) -> forall x, cell x = e -> physical d (u x).
Proof.
  intros cell shape order q q' d U u e Poly Re St O P x X.
  apply (started_physical cell shape Poly order q q' (d + 2) U u ltac:(destruct St as [St|St]; exact St) Re e d eq_refl O P x X).
Qed.
Print Assumptions c71_physical.

(** Initial states given on all domains and physical everywhere need not give a physical initial flow: with order 1 the density may be negative. *)
Definition density_dip (x : nat) : flow := mk_flow (Some (quadratic x + 1 / 10)) (Some [0; 0]) None (Some 1) None None None None None None None None None None.
Definition two_cells (p e : nat) : option nat := if Nat.ltb e 2 then Some p else None.
Definition dip_vector (x : nat) : list R := [quadratic x + 1 / 10; 0; 0; 5 / 2].
Definition dip_start (x : nat) : list R := if Nat.ltb x 6 then [linear_part x + 1 / 10; 0; 0; 5 / 2] else [0; 0; 0; 0].

Lemma two_cells_resolved p e r : two_cells p e = Some r -> resolves third three_points simpson simpson e r.
Proof.
  intros H. assert (E : e = 0%nat \/ e = 1%nat) by (unfold two_cells in H; destruct (Nat.ltb_spec e 2); [lia|discriminate]). split; [intros f g _ _; reflexivity|].
  split; [split|].
  - intros w x I. apply in_inside in I. destruct I as [I _]. cbn in I. repeat destruct I as [I|I]; try contradiction; injection I as <- _; lra.
  - destruct E as [->| ->]; discriminate.
  - intros f _ Z x X. destruct E as [->| ->]; destruct (third_points _ x X) as [-> | [-> | ->]];
      [apply (Z (1 / 6) 0%nat)|apply (Z (4 / 6) 1%nat)|apply (Z (1 / 6) 2%nat)|apply (Z (1 / 6) 3%nat)|apply (Z (4 / 6) 4%nat)|apply (Z (1 / 6) 5%nat)]; cbn; auto.
Qed.

Theorem c71_physical_refuted : exists name items U u,
  (forall e, exists fields, prescribed name items e fields) /\ disjoint name items /\
  (forall x, initial_vector name air items (third x) x = Ok (U x)) /\ (forall x, physical 2 (U x)) /\
  polynomials third three_points /\ (forall e p, two_cells 1 e = Some p -> resolves third three_points simpson simpson e p) /\
  started 4 (initial_element_system third three_points (two_cells 1) simpson simpson U) u /\ nth 0 (u 3%nat) 0 < 0.
Proof.
  exists second_layer, [("inner|layer"%string, density_dip)], dip_vector, dip_start.
  assert (Cov : forall e, covered_by second_layer e "inner|layer").
  { intros e. apply in_region_covered. unfold in_region, second_layer. destruct (Nat.eqb e 1); reflexivity. }
  split; [intros e; exists density_dip, "inner|layer"%string; split; [left; reflexivity|apply Cov]|].
  split; [intros e a b (p & [I|[]] & _) (p' & [I'|[]] & _); injection I as <- <-; injection I' as <- <-; reflexivity|].
  split.
  { intros x. cbn [initial_vector]. rewrite (proj2 (in_region_covered second_layer "inner|layer" (third x)) (Cov _)). unfold conservative_vector, density_dip, dip_vector. cbn. apply f_equal.
    apply f_equal2; [reflexivity|]. apply f_equal2; [ring|]. apply f_equal2; [ring|]. apply f_equal2; [field|reflexivity]. }
  split.
  { intros x. unfold physical, dip_vector. cbn [length nth total Nat.add]. assert (Q : 0 <= quadratic x) by (do 6 (destruct x as [|x]; [cbn; lra|]); cbn; lra).
    split; [reflexivity|]. split; [lra|]. replace (2 * (quadratic x + 1 / 10) * (5 / 2)) with (5 * quadratic x + 1 / 2) by field. lra. }
  split; [exact three_polynomials|]. split; [apply two_cells_resolved|]. split; [|cbn; lra].
  split; [intros x; unfold dip_start; destruct (Nat.ltb x 6); reflexivity|].
  assert (H6 : forall x, third x = 0%nat \/ third x = 1%nat \/ (6 <= x)%nat).
  { intros x. do 6 (destruct x as [|x]; [cbn; auto|]). right. right. lia. }
  assert (T2 : forall e x, (2 <= e)%nat -> third x = e -> (6 <= x)%nat) by (intros e x L E; destruct (H6 x) as [Z|[Z|Z]]; lia).
  intros k K. split.
  - intros e. unfold two_cells. destruct (Nat.ltb_spec e 2) as [L|L].
    + assert (E : e = 0%nat \/ e = 1%nat) by lia. do 4 (destruct k as [|k]; [destruct E as [->| ->]; cbn; lra|]). lia.
    + intros x X. unfold dip_start. destruct (Nat.ltb_spec x 6) as [L'|_]; [specialize (T2 e x L X); lia|]. do 4 (destruct k as [|k]; [reflexivity|]). lia.
  - intros v V. pose proof (V 0%nat) as V0. pose proof (V 1%nat) as V1. cbn in V0, V1. cbn [initial_element_system y_blf y_lf y_rhs]. unfold simpson. cbn [quad fold_right fst snd].
    unfold dip_start, dip_vector. cbn [Nat.ltb Nat.leb linear_part quadratic].
    do 4 (destruct k as [|k]; [cbn [nth]; lra|]). lia.
Qed.
Print Assumptions c71_physical_refuted.

(** An element whose domain has no initial condition starts with density zero, without any error. *)
Theorem c71_missing_refuted : forall name cfg items elem shape order vol vol' U u e p, polynomials elem shape -> (forall e p, order e = Some p -> resolves elem shape vol vol' e p) ->
  (forall x, initial_vector name cfg items (elem x) x = Ok (U x)) -> started (s_dim cfg + 2) (initial_element_system elem shape order vol vol' U) u ->
  order e = Some p -> (forall fields, ~ prescribed name items e fields) -> forall x, elem x = e -> u x = repeat 0 (s_dim cfg + 2) /\ ~ physical (s_dim cfg) (u x).
Proof.
  intros name cfg items elem shape order vol vol' U u e p Poly Re HU St O N x X.
  assert (E : u x = repeat 0 (s_dim cfg + 2)).
  { apply (started_uniform elem shape Poly order vol vol' _ U u St Re e p _ O (repeat_length _ _)); [|exact X].
    intros w y I. apply in_inside in I. destruct I as [_ I]. pose proof (HU y) as H. rewrite I, (c71_missing name cfg items e y N) in H. injection H. auto. }
  split; [exact E|]. rewrite E. intros (_ & R & _). rewrite nth_repeat in R. lra.
Qed.
Print Assumptions c71_missing_refuted.

(** ** Example: gas at rest, twice as dense in the second element; one facet, with a point on either side. *)
Definition gas (rho : R) (x : nat) : flow := mk_flow (Some rho) (Some [0; 0]) None (Some rho) None None None None None None None None None None.
Definition halves : dict (nat -> flow) := [("inner"%string, gas 1); ("layer"%string, gas 2)].
Definition halves_vector (x : nat) : list R := if Nat.eqb (third x) 1 then [2; 0; 0; 5] else [1; 0; 0; 5 / 2].
Definition halves_start (x : nat) : list R := if Nat.ltb x 3 then [1; 0; 0; 5 / 2] else if Nat.ltb x 6 then [2; 0; 0; 5] else [0; 0; 0; 0].
Definition middle (y : nat) : nat := if Nat.eqb y 2 || Nat.eqb y 3 then 1%nat else 0%nat.
Definition middle_shape (e p : nat) (f : nat -> R) : Prop := forall x y, middle x = e -> middle y = e -> f x = f y.
Definition middle_order (e : nat) : option nat := if Nat.eqb e 1 then Some 0%nat else None.
Definition middle_rule : rule := [(1, 2%nat); (1, 3%nat)].
Definition across (y : nat) : nat := match y with 2%nat => 3%nat | 3%nat => 2%nat | _ => y end.
Definition middle_start (y : nat) : list R := if Nat.eqb y 2 || Nat.eqb y 3 then [3 / 2; 0; 0; 15 / 4] else [0; 0; 0; 0].

Lemma middle_polynomials : polynomials middle middle_shape.
Proof.
  split; unfold middle_shape.
  - intros e p f g H F x y X Y. rewrite <- (H x X), <- (H y Y). exact (F x y X Y).
  - intros e p f g F G x y X Y. rewrite (F x y X Y), (G x y X Y). reflexivity.
  - intros e p c f F x y X Y. rewrite (F x y X Y). reflexivity.
  - reflexivity.
  - auto.
  - intros e f F. destruct (Nat.eq_dec e 1) as [->|N]; [exists (f 2%nat); intros x X; exact (F x 2%nat X eq_refl)|].
    destruct (Nat.eq_dec e 0) as [->|N0]; [exists (f 0%nat); intros x X; exact (F x 0%nat X eq_refl)|].
    exists 0. intros x X. unfold middle in X. destruct (Nat.eqb x 2 || Nat.eqb x 3); congruence.
Qed.

Lemma middle_point y : middle y = 1%nat -> y = 2%nat \/ y = 3%nat.
Proof. unfold middle. destruct (Nat.eqb_spec y 2) as [->|]; [auto|]. destruct (Nat.eqb_spec y 3) as [->|]; [auto|discriminate]. Qed.

Example c71_example :
  disjoint second_layer halves /\ (forall e, exists fields, prescribed second_layer halves e fields) /\
  (forall x, initial_vector second_layer air halves (third x) x = Ok (halves_vector x)) /\ (forall x, physical 2 (halves_vector x)) /\
  started 4 (initial_element_system third three_points (two_cells 0) simpson simpson halves_vector) halves_start /\
  polynomials middle middle_shape /\ (forall e p, middle_order e = Some p -> resolves middle middle_shape middle_rule middle_rule e p) /\
  single_valued middle middle_shape across /\ two_sided middle_rule across /\
  started 4 (initial_facet_system middle middle_shape middle_order middle_rule middle_rule halves_vector) middle_start /\
  content simpson halves_start 0 = 3.
Proof.
  assert (Cov : forall e, covered_by second_layer e "inner" <-> e <> 1%nat).
  { intros e. rewrite <- in_region_covered. unfold in_region, second_layer. destruct (Nat.eqb_spec e 1) as [->|N]; [split; [intros H; vm_compute in H; discriminate|congruence]|split; [auto|reflexivity]]. }
  assert (H6 : forall x, third x = 0%nat \/ third x = 1%nat \/ (6 <= x)%nat).
  { intros x. do 6 (destruct x as [|x]; [cbn; auto|]). right. right. lia. }
  split; [|split; [|split; [|split; [|split; [|split; [|split; [|split; [|split; [|split]]]]]]]]].
  - intros e a b (p & I & C) (p' & I' & C'). destruct I as [I|[I|[]]], I' as [I'|[I'|[]]]; injection I as <- <-; injection I' as <- <-; try reflexivity; apply layer_covered in C || apply layer_covered in C'; exfalso.
    + apply Cov in C. contradiction.
    + apply Cov in C'. contradiction.
  - intros e. destruct (Nat.eq_dec e 1) as [E|N]; [exists (gas 2), "layer"%string; split; [right; left; reflexivity|apply layer_covered, E]|exists (gas 1), "inner"%string; split; [left; reflexivity|apply Cov, N]].
  - intros x. unfold halves. cbn [initial_vector]. unfold halves_vector. destruct (Nat.eqb_spec (third x) 1) as [E|N].
    + rewrite (proj2 (in_region_free second_layer "inner" (third x)) ltac:(rewrite Cov; auto)), (proj2 (in_region_covered second_layer "layer" (third x)) ltac:(apply layer_covered, E)).
      unfold conservative_vector, gas. cbn. apply f_equal. apply f_equal2; [reflexivity|]. apply f_equal2; [ring|]. apply f_equal2; [ring|]. apply f_equal2; [field|reflexivity].
    + rewrite (proj2 (in_region_covered second_layer "inner" (third x)) ltac:(apply Cov, N)).
      unfold conservative_vector, gas. cbn. apply f_equal. apply f_equal2; [reflexivity|]. apply f_equal2; [ring|]. apply f_equal2; [ring|]. apply f_equal2; [field|reflexivity].
  - intros x. unfold halves_vector. destruct (Nat.eqb (third x) 1); unfold physical; cbn [length nth total Nat.add]; (split; [reflexivity|]; split; lra).
  - split; [intros x; unfold halves_start; destruct (Nat.ltb x 3), (Nat.ltb x 6); reflexivity|]. intros k K. split.
    + intros e. unfold two_cells. destruct (Nat.ltb_spec e 2) as [L|L].
      * assert (E : e = 0%nat \/ e = 1%nat) by lia. do 4 (destruct k as [|k]; [destruct E as [->| ->]; cbn; split; reflexivity|]). lia.
      * intros x X. unfold halves_start. destruct (H6 x) as [Z|[Z|Z]]; try lia. destruct (Nat.ltb_spec x 3); [lia|]. destruct (Nat.ltb_spec x 6); [lia|]. do 4 (destruct k as [|k]; [reflexivity|]). lia.
    + intros v V. cbn [initial_element_system y_blf y_lf y_rhs]. unfold simpson. cbn [quad fold_right fst snd]. unfold halves_start, halves_vector. cbn [Nat.ltb Nat.leb].
      change (third 0) with 0%nat. change (third 1) with 0%nat. change (third 2) with 0%nat. change (third 3) with 1%nat. change (third 4) with 1%nat. change (third 5) with 1%nat. cbn [Nat.eqb]. reflexivity.
  - exact middle_polynomials.
  - intros e p H. unfold middle_order in H. destruct (Nat.eqb_spec e 1) as [->|]; [|discriminate]. split; [intros f g _ _; reflexivity|]. split; [split|].
    + intros w x I. apply in_inside in I. destruct I as [I _]. cbn in I. destruct I as [I|[I|[]]]; injection I as <- _; lra.
    + discriminate.
    + intros f _ Z x X. destruct (middle_point x X) as [->| ->]; [apply (Z 1 2%nat)|apply (Z 1 3%nat)]; cbn; auto.
  - assert (M : forall y, middle (across y) = middle y) by (intros y; do 4 (destruct y as [|y]; [reflexivity|]); reflexivity).
    split; [exact M|]. intros e p f y F Y. apply (F (across y) y); [rewrite M; exact Y|exact Y].
  - apply perm_swap.
  - split; [intros y; unfold middle_start; destruct (Nat.eqb y 2 || Nat.eqb y 3); reflexivity|]. intros k K. split.
    + intros e. unfold middle_order. destruct (Nat.eqb_spec e 1) as [->|N].
      * intros x y X Y. destruct (middle_point x X) as [->| ->], (middle_point y Y) as [->| ->]; reflexivity.
      * intros x X. unfold middle_start. unfold middle in X. destruct (Nat.eqb x 2 || Nat.eqb x 3); [congruence|]. do 4 (destruct k as [|k]; [reflexivity|]). lia.
    + intros v V. pose proof (V 1%nat) as V1. cbn in V1. specialize (V1 2%nat 3%nat eq_refl eq_refl). cbn [initial_facet_system y_blf y_lf y_rhs]. unfold middle_rule. cbn [quad fold_right fst snd].
      rewrite <- V1. do 4 (destruct k as [|k]; [cbn; lra|]). lia.
  - unfold content, simpson. cbn. lra.
Qed.
