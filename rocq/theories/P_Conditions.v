(** Properties C29-C32 and C55 (boundary and domain conditions). *)
From Coq Require Import String List Bool Arith Ascii Lia.
From Verif Require Import Base Dict L_Stream M_Conditions S_Conditions L_Conditions.
Import ListNotations.
Local Open Scope string_scope.
Local Open Scope list_scope.

(** States that a program reaches. *)
Definition reachable (k : conditions) : Prop :=
  exists regions options ops, user_objects ops /\ k = run (init regions options) ops.

Lemma reachable_wf : forall k, reachable k -> wf k.
Proof. intros k (rs & os & ops & U & ->). apply wf_run; [apply wf_init | exact U]. Qed.

(** * C29 *)

(** An invalid condition raises and changes nothing. *)
Theorem c29_rejected : forall k p v, (forall c, ~ refers k v c) ->
  assign k p v = (k, Some (match v with AKey _ => ValueError | _ => TypeError end)).
Proof.
  intros k p v H. destruct (assign_cases k p v) as [[c R]|(e & E & _ & ->)]; [destruct (H c R) | exact E].
Qed.
Print Assumptions c29_rejected.

(** A valid condition is appended to the list of every region named in the pattern, once per mention; all other
    regions and all earlier conditions stay; no region appears or disappears. *)
Theorem c29_attached : forall k p v c names, refers k v c -> names_of p names ->
  exists k', assign k p v = (k', None) /\ dkeys (k_data k') = dkeys (k_data k) /\ k_options k' = k_options k /\
  forall r, dget (k_data k') r = option_map (fun l => l ++ repeat c (mentions r names)) (dget (k_data k) r).
Proof.
  intros k p v c names R N. apply names_unique in N. subst names.
  destruct (assign_spec k p v c R) as (k' & E & K & O & _ & _ & G). exists k'. auto.
Qed.
Print Assumptions c29_attached.

(** Every pattern has exactly one list of names. *)
Theorem c29_pattern_names : forall p, exists names, names_of p names /\ forall names', names_of p names' -> names' = names.
Proof.
  intros p. exists (pattern_names p). split; [apply names_unique; reflexivity|]. intros names' H. apply names_unique, H.
Qed.
Print Assumptions c29_pattern_names.

(** The object is given the mesh exactly if it is attached somewhere. *)
Theorem c29_mesh : forall k p v c names, refers k v c -> names_of p names ->
  k_meshed (fst (assign k p v)) =
  (if existsb (fun n => match dget (k_data k) n with Some _ => true | None => false end) names then [c] else []) ++ k_meshed k.
Proof.
  intros k p v c names R N. apply names_unique in N. subst names.
  destruct (assign_spec k p v c R) as (k' & -> & _ & _ & _ & M & _). cbn [fst]. rewrite M.
  destruct (existsb _ _) eqn:E.
  - apply existsb_exists in E. destruct E as (n & I & H). destruct (regions_from_pattern _ _) eqn:F; [|reflexivity].
    rewrite (proj1 (regions_from_none _ _) F n I) in H. discriminate.
  - destruct (regions_from_pattern _ _) as [|x l] eqn:F; [reflexivity|]. exfalso.
    assert (X : In x (regions_from_pattern (k_data k) (pattern_names p))) by (rewrite F; left; reflexivity).
    apply filter_In in X. assert (Y : existsb (fun n => match dget (k_data k) n with Some _ => true | None => false end) (pattern_names p) = true)
      by (apply existsb_exists; exists x; exact X). congruence.
Qed.
Print Assumptions c29_mesh.

(** After any history each region shows exactly its own part of the history. *)
Theorem c29_history : forall regions options ops r,
  let k0 := init regions options in
  dget (k_data (run k0 ops)) r = region_view (k_options k0) r (if in_dec string_dec r regions then Some [] else None) ops.
Proof.
  intros regions options ops r k0. subst k0. unfold region_view. rewrite (region_refines ops (init regions options) r 0); [|reflexivity|].
  - destruct (in_dec string_dec r regions) as [I|I]; [rewrite (proj2 (init_data regions options r) I) | rewrite (init_none regions options r I)]; reflexivity.
  - apply (wf_init regions options).
Qed.
Print Assumptions c29_history.

(** A condition created by keyword is a new object. *)
Theorem c29_new_object : forall k s c, reachable k -> refers k (AKey s) c -> forall r, ~ carries k r c.
Proof.
  intros k s c W (cls & _ & ->) r H. apply reachable_wf in W. destruct W as [N A].
  apply carries_In in H; [|exact N]. destruct H as (l & I & J). specialize (A _ _ _ _ I J). lia.
Qed.
Print Assumptions c29_new_object.

Example c29_example :
  let far := mk_cond (User 0) "FarField" in
  let ops := [Assign (PStr "left|right|nowhere") (AObj far); Assign (PSeq ["right"]) (AKey "outflow");
              Assign (PStr "top") (AKey "inflow"); Assign (PStr "right|right") (AKey "periodic")] in
  let k := run (init ["left"; "top"; "right"; "top"] bcs_options) ops in
  user_objects ops /\ reachable k /\
  k_data k = [("left", [far]); ("top", []); ("right", [far; mk_cond (Auto 0) "Outflow"; mk_cond (Auto 1) "Periodic"; mk_cond (Auto 1) "Periodic"])].
Proof.
  cbn zeta. assert (U : user_objects [Assign (PStr "left|right|nowhere") (AObj (mk_cond (User 0) "FarField")); Assign (PSeq ["right"]) (AKey "outflow");
              Assign (PStr "top") (AKey "inflow"); Assign (PStr "right|right") (AKey "periodic")]).
  { intros p c I. cbn in I. destruct I as [E|[E|[E|[E|[]]]]]; try discriminate. injection E as _ <-. exists 0. reflexivity. }
  split; [exact U|]. split; [eexists _, _, _; split; [exact U | reflexivity]|]. vm_compute. reflexivity.
Qed.

(** * C30 *)

(** [get_region] returns, in the order of the regions, exactly those carrying a condition of a queried kind. *)
Theorem c30_get_region : forall k kinds, reachable k ->
  NoDup (get_region k kinds) /\
  (exists sel, get_region k kinds = filter sel (dkeys (k_data k))) /\
  forall r, In r (get_region k kinds) <-> exists c kind, carries k r c /\ In kind kinds /\ isa (c_class c) kind.
Proof.
  intros k kinds W. apply reachable_wf in W. destruct W as [N _]. unfold get_region. split; [apply NoDup_map_filter, N|]. split.
  - exists (fun r => match dget (k_data k) r with Some l => existsb (fun c => existsb (is_kind c) kinds) l | None => false end).
    revert N. generalize (k_data k) as d. induction d as [|[r l] d IH]; intros N; [reflexivity|].
    inversion N as [|x y N1 N2]; subst. specialize (IH N2). cbn [map filter snd fst dkeys]. cbn [dget]. rewrite String.eqb_refl.
    assert (Q : filter (fun r0 => match (if String.eqb r0 r then Some l else dget d r0) with
        Some l => existsb (fun c => existsb (is_kind c) kinds) l | None => false end) (map fst d) =
      filter (fun r0 => match dget d r0 with Some l => existsb (fun c => existsb (is_kind c) kinds) l | None => false end) (map fst d)).
    { apply filter_ext_in. intros a I. destruct (String.eqb_spec a r) as [->|]; [contradiction | reflexivity]. }
    rewrite Q. destruct (existsb _ l); cbn [map fst]; [f_equal|]; exact IH.
  - intros r. rewrite in_map_iff. split.
    + intros ([r' l] & <- & I). apply filter_In in I. destruct I as [I H]. cbn in H. apply existsb_exists in H.
      destruct H as (c & J & H). apply existsb_exists in H. destruct H as (kind & J2 & H).
      exists c, kind. split; [apply carries_In; [exact N|]; exists l; split; assumption|]. split; [exact J2 | apply subclass_spec, H].
    + intros (c & kind & C & J & H). apply carries_In in C; [|exact N]. destruct C as (l & I & J2). exists (r, l). split; [reflexivity|].
      apply filter_In. split; [exact I|]. cbn. apply existsb_exists. exists c. split; [exact J2|].
      apply existsb_exists. exists kind. split; [exact J | apply subclass_spec, H].
Qed.
Print Assumptions c30_get_region.

(** [has_condition] by class or by keyword. *)
Theorem c30_has_condition : forall k q, reachable k ->
  match resolve k q with
  | Ok kind => exists b, has_condition k q = Ok b /\ (b = true <-> exists r c, carries k r c /\ isa (c_class c) kind)
  | Err e => e = KeyError /\ has_condition k q = Err KeyError
  end.
Proof.
  intros k q W. apply reachable_wf in W. destruct W as [N _]. unfold has_condition, bind. destruct (resolve k q) as [kind|e] eqn:R.
  - eexists. split; [reflexivity|]. rewrite existsb_exists. split.
    + intros ([r l] & I & H). cbn in H. apply existsb_exists in H. destruct H as (c & J & H). exists r, c.
      split; [apply carries_In; [exact N|]; exists l; split; assumption | apply subclass_spec, H].
    + intros (r & c & C & H). apply carries_In in C; [|exact N]. destruct C as (l & I & J). exists (r, l). split; [exact I|].
      cbn. apply existsb_exists. exists c. split; [exact J | apply subclass_spec, H].
  - assert (E : e = KeyError); [|subst; split; reflexivity]. destruct q; cbn in R; [discriminate|].
    destruct (dget (k_options k) s); congruence.
Qed.
Print Assumptions c30_has_condition.

(** Domain boundaries: at least one condition, none of them periodic. *)
Theorem c30_domain_boundaries : forall k, reachable k -> forall r,
  In r (domain_boundaries k) <-> (exists c, carries k r c) /\ forall c, carries k r c -> ~ isa (c_class c) "Periodic".
Proof.
  intros k W r. apply reachable_wf in W. destruct W as [N _]. unfold domain_boundaries. rewrite in_map_iff. split.
  - intros ([r' l] & <- & I). apply filter_In in I. destruct I as [I H]. cbn [snd fst] in *. apply andb_true_iff in H.
    destruct H as [H1 H2]. apply NoDup_In_dget in I; [|exact N]. split.
    + destruct l as [|c l]; [discriminate|]. exists c. exists (c :: l). split; [exact I | left; reflexivity].
    + intros c (l' & G & J) P. rewrite I in G. injection G as <-. apply negb_true_iff in H1.
      assert (X : existsb (fun c => is_kind c "Periodic") l = true).
      { apply existsb_exists. exists c. split; [exact J | apply subclass_spec, P]. }
      congruence.
  - intros ((c & l & G & J) & P). exists (r, l). split; [reflexivity|]. apply filter_In. split; [apply dget_Some_In, G|].
    cbn [snd]. apply andb_true_iff. split; [|destruct l; [contradiction | reflexivity]].
    apply negb_true_iff. destruct (existsb _ l) eqn:E; [|reflexivity]. exfalso. apply existsb_exists in E.
    destruct E as (c' & J' & H). apply (P c'); [exists l; split; assumption | apply subclass_spec, H].
Qed.
Print Assumptions c30_domain_boundaries.

(** The layer dictionaries hold, for each region, the last condition of their kind. *)
Definition last_of (test : cond -> Prop) (l : list cond) (c : cond) : Prop :=
  exists l1 l2, l = l1 ++ c :: l2 /\ test c /\ forall x, In x l2 -> ~ test x.

Lemma layers_last : forall test (P : cond -> Prop), (forall c, test c = true <-> P c) -> forall k, wf k -> forall r c,
  dget (layers test k) r = Some c <-> exists l, dget (k_data k) r = Some l /\ last_of P l c.
Proof.
  intros test P TP k [N _] r c. rewrite layers_get by exact N. destruct (dget (k_data k) r) as [l|].
  - assert (R := rev_filter_last test l c). split.
    + intros H. destruct (rev (filter test l)) as [|c' t]; [discriminate|]. injection H as ->.
      destruct (proj1 R (ex_intro _ t eq_refl)) as (l1 & l2 & E & T & F). exists l. split; [reflexivity|].
      exists l1, l2. split; [exact E|]. split; [apply TP, T|]. intros x I X. apply TP in X. rewrite (F x I) in X. discriminate.
    + intros (l' & E & l1 & l2 & -> & T & F). injection E as ->.
      assert (X : exists t, rev (filter test (l1 ++ c :: l2)) = c :: t).
      { apply rev_filter_last. exists l1, l2. split; [reflexivity|]. split; [apply TP, T|]. intros x I.
        destruct (test x) eqn:Q; [|reflexivity]. apply TP in Q. destruct (F x I Q). }
      destruct X as [t ->]. reflexivity.
  - split; [discriminate|]. intros (l & E & _). discriminate.
Qed.

Theorem c30_layers : forall k, reachable k -> forall r c,
  (dget (psponge_layers k) r = Some c <->
     exists l, dget (k_data k) r = Some l /\ last_of (fun c => isa (c_class c) "PSpongeLayer") l c) /\
  (dget (sponge_layers k) r = Some c <->
     exists l, dget (k_data k) r = Some l /\ last_of (fun c => isa (c_class c) "SpongeLayer" /\ ~ isa (c_class c) "PSpongeLayer") l c) /\
  (dget (grid_deformations k) r = Some c <->
     exists l, dget (k_data k) r = Some l /\ last_of (fun c => isa (c_class c) "GridDeformation") l c).
Proof.
  intros k W r c. apply reachable_wf in W. split; [|split].
  - apply layers_last; [|exact W]. intros x. apply subclass_spec.
  - apply layers_last; [|exact W]. intros x. rewrite andb_true_iff, negb_true_iff. rewrite <- !subclass_spec. unfold is_kind.
    destruct (subclass (c_class x) "PSpongeLayer"); intuition congruence.
  - apply layers_last; [|exact W]. intros x. apply subclass_spec.
Qed.
Print Assumptions c30_layers.

(** Periodic boundaries: at least one periodic condition.  So the boundaries with conditions are either periodic or domain
    boundaries, never both. *)
Theorem c30_periodic_boundaries : forall k, reachable k -> forall r,
  (In r (periodic_boundaries k) <-> exists c, carries k r c /\ isa (c_class c) "Periodic") /\
  ((exists c, carries k r c) <-> In r (periodic_boundaries k) \/ In r (domain_boundaries k)) /\
  ~ (In r (periodic_boundaries k) /\ In r (domain_boundaries k)).
Proof.
  intros k W r. assert (P : In r (periodic_boundaries k) <-> exists c, carries k r c /\ isa (c_class c) "Periodic").
  { unfold periodic_boundaries. rewrite (proj2 (proj2 (c30_get_region k _ W))). split.
    - intros (c & kind & C & [<-|[]] & I). exists c. split; assumption.
    - intros (c & C & I). exists c, "Periodic"%string. split; [exact C|]. split; [left; reflexivity | exact I]. }
  pose proof (c30_domain_boundaries k W r) as D. split; [exact P|]. split.
  - split.
    + intros (c0 & l & G & J0). destruct (existsb (fun c => is_kind c "Periodic") l) eqn:E.
      * left. apply P. apply existsb_exists in E. destruct E as (c & J & H). exists c. split; [exists l; split; assumption | apply subclass_spec, H].
      * right. apply D. split; [exists c0, l; split; assumption|]. intros c (l' & G' & J) H. rewrite G in G'. injection G' as <-.
        assert (X : existsb (fun c => is_kind c "Periodic") l = true) by (apply existsb_exists; exists c; split; [exact J | apply subclass_spec, H]). congruence.
    + intros [I|I]; [apply P in I; destruct I as (c & C & _); exists c; exact C | apply D in I; apply I].
  - intros [I J]. apply P in I. apply D in J. destruct I as (c & C & I). exact (proj2 J c C I).
Qed.
Print Assumptions c30_periodic_boundaries.

(** The pattern names exactly the regions found, if there are any and no name contains a bar. *)
Theorem c30_pattern : forall k kinds, reachable k -> (forall r, In r (dkeys (k_data k)) -> ~ has_bar r) ->
  (get_region k kinds <> [] -> split_bar (get_region_pattern k kinds) = get_region k kinds) /\
  (get_region k kinds = [] -> get_region_pattern k kinds = ""%string).
Proof.
  intros k kinds W B. split; [|intros E; unfold get_region_pattern; rewrite E; reflexivity].
  intros N. apply join_split; [exact N|]. intros n I. apply B. destruct (c30_get_region k kinds W) as (_ & (sel & E) & _). rewrite E in I. apply filter_In in I. apply I.
Qed.
Print Assumptions c30_pattern.

Example c30_example :
  let k := run (init ["a"; "b"; "c"; "d"] bcs_options)
    [Assign (PStr "d|a") (AKey "grcbc"); Assign (PStr "b") (AKey "periodic"); Assign (PStr "b|c") (AObj (mk_cond (User 1) "NSCBC"))] in
  get_region k ["CBC"] = ["a"; "b"; "c"; "d"] /\ get_region k ["GRCBC"; "Periodic"] = ["a"; "b"; "d"] /\
  domain_boundaries k = ["a"; "c"; "d"] /\ periodic_boundaries k = ["b"] /\ get_region_pattern k ["GRCBC"; "Periodic"] = "a|b|d" /\ has_condition k (QKey "nscbc") = Ok true /\ has_condition k (QKey "outflow") = Ok false /\
  has_condition k (QKey "cbc") = Err KeyError.
Proof. vm_compute. auto 10. Qed.

(** * C31 *)

(** The iteration orders are the orders in which the set of the conditions found on the regions can be listed. *)
Theorem c31_members : forall k kind order, reachable k ->
  (iteration_order k kind order <-> NoDup order /\ forall c, In c order <-> In c (members k kind)).
Proof.
  intros k kind order W. apply reachable_wf in W. destruct W as [N _]. unfold iteration_order.
  assert (M : forall c, In c (members k kind) <-> isa (c_class c) kind /\ exists r, carries k r c).
  { intros c. unfold members. rewrite filter_In, in_concat. split.
    - intros ((l & I & J) & H). apply in_map_iff in I. destruct I as ([r l'] & <- & I). split; [apply subclass_spec, H|].
      exists r. apply carries_In; [exact N|]. exists l'. split; assumption.
    - intros (H & r & C). apply carries_In in C; [|exact N]. destruct C as (l & I & J). split; [|apply subclass_spec, H].
      exists l. split; [apply in_map_iff; exists (r, l); split; [reflexivity | exact I] | exact J]. }
  split; intros (A & B); (split; [exact A|]); intros c; rewrite B; [symmetry|]; apply M.
Qed.
Print Assumptions c31_members.

(** Whatever the iteration order of the set: every entry is an assigned condition of the kind with all its regions. *)
Theorem c31_sound : forall k kind order, reachable k -> iteration_order k kind order ->
  NoDup (dkeys (to_pattern k order)) /\
  forall p c, In (p, c) (to_pattern k order) ->
    isa (c_class c) kind /\ (exists r, carries k r c) /\ exists rs, attached_to k c rs /\ p = String.concat "|" rs.
Proof.
  intros k kind order W [N O]. split; [apply NoDup_to_pattern|]. intros p c I. apply to_pattern_In in I. destruct I as [I ->].
  apply O in I. destruct I as [I J]. split; [exact I|]. split; [exact J|].
  exists (regions_of (k_data k) c). split; [apply attached_regions; reflexivity | reflexivity].
Qed.
Print Assumptions c31_sound.

(** A condition whose region list no other condition of the kind has is returned with that list. *)
Theorem c31_complete : forall k kind order c rs, reachable k -> iteration_order k kind order ->
  (forall r, In r (dkeys (k_data k)) -> ~ has_bar r) ->
  isa (c_class c) kind -> (exists r, carries k r c) -> attached_to k c rs ->
  (forall c', isa (c_class c') kind -> attached_to k c' rs -> (exists r, carries k r c') -> c' = c) ->
  In (String.concat "|" rs, c) (to_pattern k order).
Proof.
  intros k kind order c rs W [N O] B K C A U. apply reachable_wf in W. destruct W as [ND _].
  assert (I : In c order) by (apply O; split; assumption).
  destruct (to_pattern_covers k order c I) as (c' & J & E & I'). apply O in I'. destruct I' as [K' C'].
  assert (R := pkey_inj k c' c ND B C' C E). apply attached_regions in A. subst rs.
  assert (c' = c).
  { apply U; [exact K' | | exact C']. apply attached_regions. congruence. }
  subst c'. exact J.
Qed.
Print Assumptions c31_complete.

(** The full claim is false: of two conditions with the same region list, one is lost in every iteration order. *)
Theorem c31_same_regions_refuted : forall k kind order a b rs, reachable k -> iteration_order k kind order ->
  a <> b -> attached_to k a rs -> attached_to k b rs ->
  ~ ((exists p, In (p, a) (to_pattern k order)) /\ (exists p, In (p, b) (to_pattern k order))).
Proof.
  intros k kind order a b rs W O D A B [[p I] [q J]]. apply attached_regions in A, B.
  assert (N := NoDup_to_pattern k order).
  assert (P := I). assert (Q := J). apply to_pattern_In in P, Q. destruct P as [_ P], Q as [_ Q].
  unfold pkey in P, Q. rewrite <- A in P. rewrite <- B in Q. subst p q.
  apply NoDup_In_dget in I; [|exact N]. apply NoDup_In_dget in J; [|exact N]. congruence.
Qed.
Print Assumptions c31_same_regions_refuted.

(** Such states are reached by two assignments to one region. *)
Theorem c31_lost_condition_refuted : exists k order a b, reachable k /\ iteration_order k "Condition" order /\ a <> b /\
  carries k "left" a /\ carries k "left" b /\ ~ exists p, In (p, a) (to_pattern k order).
Proof.
  set (a := mk_cond (Auto 0) "FarField"). set (b := mk_cond (Auto 1) "Outflow").
  set (ops := [Assign (PStr "left") (AKey "farfield"); Assign (PStr "left") (AKey "outflow")]).
  exists (run (init ["left"; "right"] bcs_options) ops), [a; b], a, b.
  assert (D : k_data (run (init ["left"; "right"] bcs_options) ops) = [("left", [a; b]); ("right", [])]) by (vm_compute; reflexivity).
  split. { exists ["left"; "right"], bcs_options, ops. split; [|reflexivity]. intros p c I. cbn in I. destruct I as [E|[E|[]]]; discriminate. }
  split.
  { split; [repeat constructor; cbn; unfold a, b; intuition discriminate|]. intros c. split.
    - intros [<-|[<-|[]]]; (split; [apply subclass_spec; vm_compute; reflexivity|]); exists "left"; exists [a; b]; rewrite D; split; try reflexivity; cbn; auto.
    - intros [_ (r & l & G & I)]. rewrite D in G. cbn [dget] in G.
      destruct (String.eqb r "left"); [injection G as <-; exact I|]. destruct (String.eqb r "right"); [|discriminate]. injection G as <-. contradiction. }
  split; [unfold a, b; discriminate|].
  split; [exists [a; b]; rewrite D; split; [reflexivity | left; reflexivity]|].
  split; [exists [a; b]; rewrite D; split; [reflexivity | right; left; reflexivity]|].
  intros [p I]. vm_compute in I. destruct I as [E|[]]. discriminate.
Qed.
Print Assumptions c31_lost_condition_refuted.

Example c31_example :
  let k := run (init ["a"; "b"; "c"] bcs_options)
    [Assign (PStr "c|a") (AKey "farfield"); Assign (PStr "b") (AKey "outflow")] in
  let f := mk_cond (Auto 0) "FarField" in let o := mk_cond (Auto 1) "Outflow" in
  to_pattern k [f; o] = [("a|c", f); ("b", o)] /\ to_pattern k [o; f] = [("b", o); ("a|c", f)].
Proof. vm_compute. auto. Qed.

(** * C32 *)

Theorem c32_periodic_check : forall periodic k, reachable k ->
  (set_boundary_conditions periodic k = Err ValueError <-> periodic = true /\ forall r c, carries k r c -> ~ isa (c_class c) "Periodic") /\
  (set_boundary_conditions periodic k = Ok tt <-> periodic = false \/ exists r c, carries k r c /\ isa (c_class c) "Periodic").
Proof.
  intros periodic k W. unfold set_boundary_conditions.
  destruct (c30_has_condition k (QClass "Periodic") W) as (b & E & H). rewrite E. cbn [bind].
  destruct periodic, b; cbn; split; split; intros X; try discriminate; try (left; reflexivity); try reflexivity.
  - exfalso. destruct X as [_ X]. destruct (proj1 H eq_refl) as (r & c & C & P). apply (X r c C P).
  - right. apply H. reflexivity.
  - split; [reflexivity|]. intros r c C P. assert (Y : false = true) by (apply H; exists r, c; split; assumption). discriminate.
  - exfalso. destruct X as [X|X]; [discriminate|]. apply H in X. discriminate.
  - destruct X; discriminate.
  - destruct X; discriminate.
Qed.
Print Assumptions c32_periodic_check.

Example c32_example :
  let k0 := init ["left"; "right"; "top"] bcs_options in
  let k1 := run k0 [Assign (PStr "left|right") (AKey "periodic")] in
  set_boundary_conditions true k0 = Err ValueError /\ set_boundary_conditions true k1 = Ok tt /\
  set_boundary_conditions true (run k1 [Clear]) = Err ValueError.
Proof. vm_compute. auto. Qed.

(** * C55 *)

(** If setting up the boundary terms succeeds, every boundary condition of the pattern view contributes exactly one
    term, of the formulation of its kind, on exactly its regions; periodic conditions contribute none; nothing else
    is added and earlier terms stay. *)
Theorem c55_boundary_terms : forall ready sh k order blf blf', reachable k -> iteration_order k "Condition" order ->
  add_terms (boundary_term ready sh) (to_pattern k order) blf = Ok blf' ->
  (forall p c, In (p, c) (to_pattern k order) ->
     isa (c_class c) "Periodic" \/
     exists K f, isa (c_class c) K /\ boundary_formulation K f /\ dget blf' (cond_name c ++ "_" ++ p)%string = Some (f, p, c)) /\
  (forall key f p c, dget blf' key = Some (f, p, c) -> dget blf key = Some (f, p, c) \/
     In (p, c) (to_pattern k order) /\ ~ isa (c_class c) "Periodic" /\ exists K, isa (c_class c) K /\ boundary_formulation K f) /\
  (forall key v, dget blf key = Some v -> (forall c p, In (c_class c) boundary_classes -> key <> (cond_name c ++ "_" ++ p)%string) -> dget blf' key = Some v).
Proof.
  intros ready sh k order blf blf' W O H.
  destruct (add_terms_spec _ (fun c f H => in_or_app _ _ _ (or_introl (boundary_term_class ready sh c f H))) _ _ _ (NoDup_to_pattern k order) H) as (A & B & C).
  split; [|split].
  - intros p c I. destruct (A p c I) as (t & T & F). destruct t as [f|].
    + right. destruct (boundary_term_formulation _ _ _ _ T) as (K & KI & BF). exists K, f. split; [exact KI|]. split; [exact BF|]. apply F. reflexivity.
    + left. apply boundary_term_periodic in T. exact T.
  - intros key f p c G. apply B in G. destruct G as [G|(f' & p' & c' & I & T & -> & E)]; [left; exact G|]. right.
    injection E as <- <- <-. split; [exact I|]. split.
    + intros P. apply (boundary_term_periodic ready sh) in P. congruence.
    + eapply boundary_term_formulation. exact T.
  - intros key v G X. rewrite C; [exact G|]. intros rs c f I T. apply X. eapply boundary_term_class. exact T.
Qed.
Print Assumptions c55_boundary_terms.

(** Every boundary that is masked as a domain boundary is covered by a term. *)
Theorem c55_masked_covered : forall ready sh k order blf blf' r, reachable k -> iteration_order k "Condition" order ->
  (forall r c, carries k r c -> isa (c_class c) "Condition") ->
  (forall r, In r (dkeys (k_data k)) -> ~ has_bar r) ->
  add_terms (boundary_term ready sh) (to_pattern k order) blf = Ok blf' ->
  In r (domain_boundaries k) ->
  exists p c f rs, carries k r c /\ dget blf' (cond_name c ++ "_" ++ p)%string = Some (f, p, c) /\
    attached_to k c rs /\ p = String.concat "|" rs /\ In r rs.
Proof.
  intros ready sh k order blf blf' r W O CC B H D. apply c30_domain_boundaries in D; [|exact W]. destruct D as [[c C] NP].
  assert (ND := proj1 (reachable_wf k W)).
  assert (I : In c order) by (apply O; split; [eapply CC; exact C | exists r; exact C]).
  destruct (to_pattern_covers k order c I) as (c' & J & E & I').
  destruct (proj1 (proj2 O c') I') as [K' C'].
  assert (R := pkey_inj k c' c ND B C' (ex_intro _ r C) E).
  assert (Q : In r (regions_of (k_data k) c')) by (rewrite R; apply regions_of_In; assumption).
  assert (C2 : carries k r c') by (apply regions_of_In; assumption).
  destruct (c55_boundary_terms _ _ _ _ _ _ W O H) as (A & _).
  destruct (A _ _ J) as [P|(K & f & _ & _ & G)]; [destruct (NP c' C2 P)|].
  exists (pkey k c), c', f, (regions_of (k_data k) c'). split; [exact C2|]. split; [exact G|].
  split; [apply attached_regions; reflexivity|]. split; [unfold pkey; rewrite R; reflexivity | exact Q].
Qed.
Print Assumptions c55_masked_covered.

(** Setting up fails exactly if some condition cannot be translated. *)
Theorem c55_boundary_errors : forall ready sh k order blf,
  (exists blf', add_terms (boundary_term ready sh) (to_pattern k order) blf = Ok blf') <->
  forall p c, In (p, c) (to_pattern k order) -> exists t, boundary_term ready sh c = Ok t.
Proof.
  intros ready sh k order blf. split.
  - intros [blf' H] p c I. destruct (boundary_term ready sh c) as [t|e] eqn:E; [eexists; reflexivity|].
    destruct (add_terms_err _ _ blf _ _ _ I E) as [e' X]. congruence.
  - intros H. apply add_terms_ok. exact H.
Qed.
Print Assumptions c55_boundary_errors.

(** Every offered boundary condition can be translated once its fields are set (adiabatic walls only with the
    strain-heat method). *)
Theorem c55_options_supported : forall ready sh c, In (c_class c) bcs_options -> ready c = true ->
  (c_class c = "AdiabaticWall" -> sh = true) -> exists t, boundary_term ready sh c = Ok t.
Proof.
  intros ready sh [i cls] I R S. cbn in I, S. unfold boundary_term, is_kind. cbn [c_class].
  repeat (destruct I as [<-|I]; [vm_compute; rewrite ?R; try (rewrite S by reflexivity); eexists; reflexivity|]). contradiction.
Qed.
Print Assumptions c55_options_supported.

(** The corresponding claim for domain conditions is false: four of the seven offered conditions make the setup
    fail, and the polynomial sponge layer is treated as an ordinary sponge layer. *)
Theorem c55_domain_options_refuted : forall ready c, c_class c = "PML" \/ c_class c = "Force" \/ c_class c = "Perturbation" \/ c_class c = "GridDeformation" ->
  In (c_class c) dcs_options /\
  forall k order p blf, In (p, c) (to_pattern k order) -> exists e, add_terms (domain_term ready) (to_pattern k order) blf = Err e.
Proof.
  intros ready [i cls] H. cbn in H. split; [destruct H as [->|[->|[->| ->]]]; vm_compute; auto 10|].
  intros k order p blf I. eapply add_terms_err; [exact I|].
  destruct H as [->|[->|[->| ->]]]; vm_compute; reflexivity.
Qed.
Print Assumptions c55_domain_options_refuted.

Theorem c55_psponge_refuted : forall ready c, domain_term ready c <> Ok (Some FPSponge).
Proof.
  intros ready c. unfold domain_term. destruct (is_kind c "SpongeLayer") eqn:E; [destruct (ready c); discriminate|].
  destruct (is_kind c "PSpongeLayer") eqn:F; [|destruct (is_kind c "Initial"); discriminate]. exfalso.
  apply subclass_spec in F. assert (X : isa (c_class c) "SpongeLayer").
  { eapply isa_trans; [exact F|]. econstructor; [vm_compute; reflexivity | constructor]. }
  apply subclass_spec in X. unfold is_kind in E. congruence.
Qed.
Print Assumptions c55_psponge_refuted.

Theorem c55_domain_terms : forall ready c,
  (isa (c_class c) "SpongeLayer" -> ready c = true -> domain_term ready c = Ok (Some FSponge)) /\
  (c_class c = "Initial" -> domain_term ready c = Ok None).
Proof.
  intros ready c. split.
  - intros H R. apply subclass_spec in H. unfold domain_term. replace (is_kind c "SpongeLayer") with true by (symmetry; exact H). rewrite R. reflexivity.
  - destruct c as [i cls]. cbn. intros ->. reflexivity.
Qed.
Print Assumptions c55_domain_terms.

(** A boundary with a periodic and another condition is not masked although it has a boundary term. *)
Theorem c55_periodic_mixed_refuted : exists k order blf f c, reachable k /\ iteration_order k "Condition" order /\
  add_terms (boundary_term (fun _ => true) false) (to_pattern k order) [] = Ok blf /\
  dget blf "farfield_left|right" = Some (f, "left|right", c) /\ domain_boundaries k = [].
Proof.
  set (a := mk_cond (Auto 0) "FarField"). set (b := mk_cond (Auto 1) "Periodic").
  set (c := mk_cond (Auto 2) "Periodic").
  set (ops := [Assign (PStr "left|right") (AKey "farfield"); Assign (PStr "left") (AKey "periodic"); Assign (PStr "right") (AKey "periodic")]).
  exists (run (init ["left"; "right"] bcs_options) ops), [a; b; c]. eexists. exists FFarField, a.
  assert (D : k_data (run (init ["left"; "right"] bcs_options) ops) = [("left", [a; b]); ("right", [a; c])]) by (vm_compute; reflexivity).
  split. { exists ["left"; "right"], bcs_options, ops. split; [|reflexivity]. intros p x I. cbn in I. destruct I as [E|[E|[E|[]]]]; discriminate. }
  split.
  { split; [repeat constructor; cbn; unfold a, b, c; intuition discriminate|]. intros x. split.
    - intros [<-|[<-|[<-|[]]]]; (split; [apply subclass_spec; vm_compute; reflexivity|]).
      + exists "left", [a; b]. rewrite D. split; [reflexivity | left; reflexivity].
      + exists "left", [a; b]. rewrite D. split; [reflexivity | right; left; reflexivity].
      + exists "right", [a; c]. rewrite D. split; [reflexivity | right; left; reflexivity].
    - intros [_ (r & l & G & I)]. rewrite D in G. cbn [dget] in G.
      destruct (String.eqb r "left"); [injection G as <-; cbn in *; tauto|].
      destruct (String.eqb r "right"); [|discriminate]. injection G as <-. cbn in *. tauto. }
  split; [vm_compute; reflexivity|]. split; vm_compute; reflexivity.
Qed.
Print Assumptions c55_periodic_mixed_refuted.

Example c55_example :
  let k := run (init ["inflow"; "wall"; "out"; "top"; "bottom"] bcs_options)
    [Assign (PStr "inflow") (AKey "farfield"); Assign (PStr "wall") (AKey "symmetry"); Assign (PStr "out") (AKey "nscbc");
     Assign (PStr "top|bottom") (AKey "periodic")] in
  let c n := mk_cond (Auto n) in
  let order := [c 2 "NSCBC"; c 0 "FarField"; c 3 "Periodic"; c 1 "Symmetry"] in
  add_terms (boundary_term (fun _ => true) false) (to_pattern k order) [("convection", (FSponge, "", c 9 ""))] =
  Ok [("convection", (FSponge, "", c 9 "")); ("nscbc_out", (FCbc, "out", c 2 "NSCBC")); ("farfield_inflow", (FFarField, "inflow", c 0 "FarField"));
      ("symmetry_wall", (FInviscidWall, "wall", c 1 "Symmetry"))] /\
  domain_boundaries k = ["inflow"; "wall"; "out"].
Proof. vm_compute. auto. Qed.
