(** Configuration options: rejected values, parameter identity, shared root and mesh, keywords (C20-C23). *)
From Coq Require Import String List Bool Arith ZArith QArith Lia.
From Verif Require Import Base Dict M_Config S_Config M_Classes M_Heap S_Heap L_ConfigTree L_Config L_Default L_Valid L_Classes L_Heap.
Import ListNotations.
Local Open Scope string_scope.
Local Open Scope nat_scope.
Local Open Scope list_scope.

Section Generic.
Context {A : Type}.
Variable classes : dict (class A).
Variable registry : dict (dict string).
Variable depth : nat.
Notation assign := (@assign A classes registry depth).
Notation run := (@run A classes registry depth).
Notation clear := (@clear A classes depth).
Notation instantiate := (@instantiate A classes depth).

(** ** C20 *)

(** An assignment of anything but a dictionary that raises changes nothing. *)
Theorem c20_rejected_unchanged : forall c name v next c' next' e,
  (forall d, v <> VDict d) -> assign c name v next = (c', next', Some e) -> c' = c /\ next' = next.
Proof.
  intros c name v n c' n' e N. apply set_option_rejected. intros D. destruct v; try contradiction. exact (N _ eq_refl).
Qed.

(** For options holding values and for parameters, dictionaries included. *)
Theorem c20_rejected_value : forall c name v next c' next' e,
  (exists d fset, find_kind classes (cfg_class c) name = Some (KPlain d fset) \/ find_kind classes (cfg_class c) name = Some (KParam d fset)) ->
  assign c name v next = (c', next', Some e) -> c' = c /\ next' = next.
Proof.
  intros c name v n c' n' e (d & fs & [K|K]); unfold M_Config.assign, set_option; rewrite K; destruct (fs v); try discriminate;
    try (intros [= <- <- _]; auto). destruct (dget (cfg_data c) name) as [[]|]; try discriminate; intros [= <- <- _]; auto.
Qed.

(** Whatever happens, only the assigned option can differ afterwards. *)
Theorem c20_only_assigned_option : forall c name v next, differs_only_at c (fst (fst (assign c name v next))) name.
Proof. intros. apply set_option_differs. Qed.

(** Accepted values are stored as the setter returned them. *)
Theorem c20_accepted_value : forall c name v w next d fset, find_kind classes (cfg_class c) name = Some (KPlain d fset) -> fset v = Ok w ->
  exists c', assign c name v next = (c', next, None) /\ dget (cfg_data c') name = Some (SPlain w).
Proof.
  intros c name v w n d fs K E. unfold M_Config.assign, set_option. rewrite K, E. eexists. split; [reflexivity|].
  rewrite with_data_data. apply dget_dset_same.
Qed.

(** After any history of statements, every stored value was produced by the setter of its option. *)
Theorem c20_stored_values_accepted : forall c next ops,
  (forall cls C, dget classes cls = Some C -> NoDup (map fst (k_opts C))) ->
  accepted_values classes c -> (forall o, In o ops -> accepted_statement classes o) ->
  accepted_values classes (fst (run c next ops)).
Proof. intros c n ops D H G. apply acc_run; assumption. Qed.

Theorem c20_defaults_accepted : forall cls root mesh next c next',
  (forall cls C, dget classes cls = Some C -> NoDup (map fst (k_opts C))) ->
  instantiate cls root mesh next = Ok (c, next') -> accepted_values classes c.
Proof. intros cls r m n c n' D E. eapply acc_instantiate; [exact D | exact E]. Qed.

(** ** C21 *)

(** The object of a parameter survives every history of statements on the configuration that does not
    reset it; sub-configurations are covered by [c21_statements_below]. *)
Theorem c21_identity_kept : forall c next ops name d fset id v,
  find_kind classes (cfg_class c) name = Some (KParam d fset) -> dget (cfg_data c) name = Some (SParam id v) ->
  ~ In (OClear []) ops ->
  exists w, dget (cfg_data (fst (run c next ops))) name = Some (SParam id w).
Proof.
  intros c n ops name d fs id v K E N. destruct (same_params_run classes registry depth ops c n N) as [_ H].
  specialize (H _ _ _ K id). unfold param_id in H. rewrite E in H. specialize (H eq_refl).
  destruct (dget (cfg_data (fst (run c n ops))) name) as [[|i w|]|]; try discriminate. injection H as ->. eauto.
Qed.

(** It holds the last accepted value. *)
Theorem c21_last_value : forall c next name vs d fset id v,
  find_kind classes (cfg_class c) name = Some (KParam d fset) -> dget (cfg_data c) name = Some (SParam id v) ->
  dget (cfg_data (fst (run c next (map (OAssign [] name) vs)))) name = Some (SParam id (last_valid fset v (rev vs))).
Proof. intros. rewrite run_assigns. eapply param_last_valid; eassumption. Qed.

(** Statements below a sub-configuration are statements on it. *)
Theorem c21_statements_below : forall c p s next ops, dget (cfg_data c) p = Some (SSub s) ->
  cfg_data (fst (run c next (map (below p) ops))) = dset (cfg_data c) p (SSub (fst (run s next ops))).
Proof. intros c p s n ops E. rewrite (run_below classes registry depth _ _ _ _ _ E). cbn. apply with_data_data. Qed.

(** A reset creates new objects: identities not used before. *)
Theorem c21_reset_creates : forall c next c' next', clear c next = (c', next', None) ->
  next <= next' /\ forall id, uses_param c' id -> next <= id < next'.
Proof.
  intros c n c' n'. unfold M_Config.clear. destruct (M_Config.instantiate _ _ _ _ _ _) as [[c1 n1]|e] eqn:E; [|discriminate].
  intros [= <- <-]. eapply instantiate_ids. exact E.
Qed.

(** ** C22 *)

(** Any history on a tree keeps root and mesh of the top and passes them on to all levels. *)
Theorem c22_history : forall c next ops, shares_root_and_mesh c ->
  cfg_root (fst (run c next ops)) = cfg_root c /\ cfg_mesh (fst (run c next ops)) = cfg_mesh c /\
  shares_root_and_mesh (fst (run c next ops)).
Proof. intros c n ops H. destruct (keeps_labels_run classes registry depth ops c n) as (R & M & K). auto. Qed.

Theorem c22_default : forall cls root mesh next c next', instantiate cls root mesh next = Ok (c, next') ->
  cfg_root c = root /\ cfg_mesh c = mesh /\ shares_root_and_mesh c.
Proof.
  intros cls r m n c n' E. apply instantiate_labelled in E. destruct E as (L & R & M & _). split; [exact R|]. split; [exact M|].
  intros s Hs. rewrite R, M. apply L. exact Hs.
Qed.

(** ** C23 *)

(** An unregistered keyword raises and changes nothing. *)
Theorem c23_unknown_keyword : forall c name word next iface cls tree,
  find_kind classes (cfg_class c) name = Some (KInterface iface cls) -> dget registry iface = Some tree -> dget tree word = None ->
  assign c name (VStr word) next = (c, next, Some TypeError).
Proof. intros c name w n iface cls tree K R E. unfold M_Config.assign, set_option. rewrite K, R, E. reflexivity. Qed.

(** The current instance is kept if it is of the selected class. *)
Theorem c23_current_kept : forall c name word next iface cls tree k s K,
  find_kind classes (cfg_class c) name = Some (KInterface iface cls) -> dget registry iface = Some tree -> dget tree word = Some k ->
  dget (cfg_data c) name = Some (SSub s) -> dget classes (cfg_class s) = Some K -> In k (k_bases K) ->
  assign c name (VStr word) next = (c, next, None).
Proof.
  intros c name w n iface cls tree k s C K R E S HC I. unfold M_Config.assign, set_option. rewrite K, R, E, S.
  unfold is_instance. rewrite HC. replace (existsb (String.eqb k) (k_bases C)) with true; [reflexivity|].
  symmetry. apply existsb_exists. exists k. split; [exact I | apply String.eqb_refl].
Qed.

(** Otherwise a new instance of the selected class with default settings and new parameter objects,
    sharing root and mesh, is stored; nothing else changes. *)
Theorem c23_fresh_instance : forall c name word next iface cls tree k s K c' next',
  (forall cls C, dget classes cls = Some C -> NoDup (map fst (k_opts C))) ->
  find_kind classes (cfg_class c) name = Some (KInterface iface cls) -> dget registry iface = Some tree -> dget tree word = Some k ->
  dget (cfg_data c) name = Some (SSub s) -> dget classes (cfg_class s) = Some K -> ~ In k (k_bases K) ->
  assign c name (VStr word) next = (c', next', None) ->
  differs_only_at c c' name /\
  exists s', dget (cfg_data c') name = Some (SSub s') /\ cfg_class s' = k /\ has_defaults classes s' /\
    cfg_root s' = cfg_root c /\ cfg_mesh s' = cfg_mesh c /\ shares_root_and_mesh s' /\
    forall id, uses_param s' id -> next <= id < next'.
Proof.
  intros c name w n iface cls tree k s C c' n' D K R E S HC I A0. split.
  { pose proof (set_option_differs classes registry depth (update classes registry depth) c name (VStr w) n) as X.
    unfold M_Config.assign in A0. rewrite A0 in X. exact X. }
  unfold M_Config.assign, set_option in A0. rewrite K, R, E, S in A0.
  unfold is_instance in A0. rewrite HC in A0. replace (existsb (String.eqb k) (k_bases C)) with false in A0.
  - unfold store_fresh in A0. destruct (M_Config.instantiate _ _ _ _ _ _) as [[s' n1]|e] eqn:F; [|discriminate]. injection A0 as <- <-.
    rewrite with_data_data. exists s'. split; [apply dget_dset_same|].
    destruct (instantiate_defaults classes D _ _ _ _ _ _ _ F) as [K1 K2]. destruct (c22_default _ _ _ _ _ _ F) as (L1 & L2 & L3).
    destruct (instantiate_ids classes _ _ _ _ _ _ _ F) as [_ L4]. repeat (split; [assumption|]). exact L4.
  - symmetry. apply not_true_iff_false. intros X. apply existsb_exists in X. destruct X as (b & Ib & Eb). apply String.eqb_eq in Eb. subst b. contradiction.
Qed.

(** A sub-configuration without registry only knows its own name; the name resets it. *)
Theorem c23_unique_keyword : forall c name word next cls c' next' e,
  find_kind classes (cfg_class c) name = Some (KUnique cls) -> assign c name (VStr word) next = (c', next', e) ->
  (word = class_name classes cls -> e = None -> exists s', dget (cfg_data c') name = Some (SSub s') /\ cfg_class s' = cls) /\
  (word <> class_name classes cls -> c' = c /\ next' = next /\ e = Some TypeError).
Proof.
  intros c name w n cls c' n' e K E. unfold M_Config.assign, set_option in E. rewrite K in E.
  destruct (String.eqb w (class_name classes cls)) eqn:Q.
  - apply String.eqb_eq in Q. split; [|congruence]. intros _ ->. unfold store_fresh in E.
    destruct (M_Config.instantiate _ _ _ _ _ _) as [[s' n1]|x] eqn:F; [|discriminate]. injection E as <- <-.
    rewrite with_data_data. exists s'. split; [apply dget_dset_same | eapply instantiate_labelled; exact F].
  - apply String.eqb_neq in Q. split; [congruence|]. intros _. injection E as <- <- <-. auto.
Qed.
End Generic.

Print Assumptions c20_rejected_unchanged.
Print Assumptions c20_rejected_value.
Print Assumptions c20_only_assigned_option.
Print Assumptions c20_accepted_value.
Print Assumptions c20_stored_values_accepted.
Print Assumptions c20_defaults_accepted.
Print Assumptions c21_identity_kept.
Print Assumptions c21_last_value.
Print Assumptions c21_statements_below.
Print Assumptions c21_reset_creates.
Print Assumptions c22_history.
Print Assumptions c22_default.
Print Assumptions c23_unknown_keyword.
Print Assumptions c23_current_kept.
Print Assumptions c23_fresh_instance.
Print Assumptions c23_unique_keyword.

(** ** The solver of the repository *)

Notation repo_run := (run (repo_classes true) repo_registry repo_depth).
Notation repo_assign := (assign (repo_classes true) repo_registry repo_depth).
Notation repo_new := (instantiate (repo_classes true) repo_depth "CompressibleFlowSolver").

(** What the validated options of the solver hold: written with integers and rationals only. *)
Definition valid_option (cls name : string) (v : value) : Prop :=
  (cls = "Timer" -> name = "interval" -> exists s e, v = VAtom (ATuple [s; e]) /\ (0 <= s)%Q /\ (s < e)%Q) /\
  (cls = "CompressibleFlowSolver" -> name = "mach_number" -> exists q, v = VAtom (AFloat q) /\ (0 <= q)%Q) /\
  (cls = "CompressibleFlowSolver" -> name = "reynolds_number" \/ name = "prandtl_number" -> exists q, v = VAtom (AFloat q) /\ (0 < q)%Q) /\
  (cls = "UmfpackNonlinearSolver" \/ cls = "PardisoNonlinearSolver" -> name = "convergence_criterion" -> exists q, v = VAtom (AFloat q) /\ (0 < q)%Q) /\
  (cls = "VTKStream" \/ cls = "GridfunctionStream" -> name = "rate" -> exists z, v = VAtom (AInt z) /\ (0 < z)%Z) /\
  (cls = "GridfunctionStream" -> name = "time_level_rate" -> exists z, v = VAtom (AInt z) /\ (0 < z)%Z).

Lemma positive_reads : forall u v, to_positive_float u = Ok v -> exists q, v = VAtom (AFloat q) /\ (0 < q)%Q.
Proof.
  intros u v. unfold to_positive_float. destruct (number u) as [q|]; [|discriminate]. destruct (Qle_bool q 0) eqn:E; [discriminate|].
  intros [= <-]. exists q. split; [reflexivity|]. apply Qnot_le_lt. intros H. apply Qle_bool_iff in H. congruence.
Qed.
Lemma reject_reads : forall b u v, reject_below b u = Ok v -> exists q, v = VAtom (AFloat q) /\ if b then (0 < q)%Q else (0 <= q)%Q.
Proof.
  intros b u v. unfold reject_below. destruct (number u) as [q|]; [|discriminate]. destruct b.
  - destruct (Qle_bool q 0) eqn:E; [discriminate|]. intros [= <-]. exists q. split; [reflexivity|].
    apply Qnot_le_lt. intros H. apply Qle_bool_iff in H. congruence.
  - destruct (Qle_bool 0 q) eqn:E; [|discriminate]. intros [= <-]. exists q. split; [reflexivity|]. apply Qle_bool_iff. exact E.
Qed.
Lemma rate_reads : forall u v, to_rate u = Ok v -> exists z, v = VAtom (AInt z) /\ (0 < z)%Z.
Proof.
  intros u v. unfold to_rate. destruct (to_int u) as [w|]; [|discriminate]. cbn. destruct w as [[|z| | |]| | | |]; try discriminate.
  destruct (Z.leb z 0) eqn:E; [discriminate|]. intros [= <-]. exists z. split; [reflexivity|]. apply Z.leb_gt in E. exact E.
Qed.
Lemma interval_reads : forall u v, to_interval u = Ok v -> exists s e, v = VAtom (ATuple [s; e]) /\ (0 <= s)%Q /\ (s < e)%Q.
Proof.
  intros u v. unfold to_interval. destruct u as [[| | |l|]| | | |]; try discriminate. destruct l as [|s [|e [|]]]; try discriminate.
  destruct (Qle_bool 0 s) eqn:E1; [|discriminate]. destruct (Qle_bool 0 e); [|discriminate]. cbn.
  destruct (Qle_bool e s) eqn:E2; [discriminate|]. intros [= <-]. exists s, e. split; [reflexivity|].
  split; [apply Qle_bool_iff; exact E1|]. apply Qnot_le_lt. intros H. apply Qle_bool_iff in H. congruence.
Qed.

(** After any history of statements on a new solver, whichever of them raised, every validated option of
    the solver, its timer, its nonlinear solver and its streams holds a valid value. *)
Theorem c20_settings_valid : forall root mesh next c next' ops, repo_new root mesh next = Ok (c, next') ->
  (forall o, In o ops -> accepted_statement (repo_classes true) o) ->
  forall s name v, reaches (fst (repo_run c next' ops)) s ->
    In (name, SPlain v) (cfg_data s) \/ (exists id, In (name, SParam id v) (cfg_data s)) -> (forall e, v <> VDict e) ->
    valid_option (cfg_class s) name v.
Proof.
  intros r m n c n' ops E G s name v R I N.
  assert (D : forall cls C, dget (repo_classes true) cls = Some C -> NoDup (map fst (k_opts C))) by (apply gt_distinct with (registry := repo_registry), table_good).
  assert (H : accepted_values (repo_classes true) (fst (repo_run c n' ops))).
  { apply c20_stored_values_accepted; [exact D | | exact G]. eapply c20_defaults_accepted; [exact D | exact E]. }
  specialize (H s name v). unfold valid_option.
  repeat split.
  - intros Q1 Q2. rewrite Q1, Q2 in *. destruct (H _ _ R (or_introl eq_refl) I N) as [u Hu]. exact (interval_reads _ _ Hu).
  - intros Q1 Q2. rewrite Q1, Q2 in *. destruct (H _ _ R (or_intror eq_refl) I N) as [u Hu]. exact (reject_reads _ _ _ Hu).
  - intros Q1 [Q2|Q2]; rewrite Q1, Q2 in *; destruct (H _ _ R (or_intror eq_refl) I N) as [u Hu]; exact (reject_reads _ _ _ Hu).
  - intros [Q1|Q1] Q2; rewrite Q1, Q2 in *; destruct (H _ _ R (or_introl eq_refl) I N) as [u Hu]; exact (positive_reads _ _ Hu).
  - intros [Q1|Q1] Q2; rewrite Q1, Q2 in *; destruct (H _ _ R (or_introl eq_refl) I N) as [u Hu]; exact (rate_reads _ _ Hu).
  - intros Q1 Q2; rewrite Q1, Q2 in *; destruct (H _ _ R (or_introl eq_refl) I N) as [u Hu]; exact (rate_reads _ _ Hu).
Qed.
Print Assumptions c20_settings_valid.

(** A dictionary is applied entry by entry: it may raise after some entries took effect. *)
Definition half_valid : value := VDict [(["max_iterations"], VAtom (AInt 5)); (["convergence_criterion"], VAtom (AFloat (-1)))].
Definition max_iterations (c : cfg atom) : option (slot atom) :=
  match dget (cfg_data c) "nonlinear_solver" with Some (SSub s) => dget (cfg_data s) "max_iterations" | _ => None end.

Theorem c20_dictionary_refuted : exists (c : cfg atom) next c' next',
  repo_new 0 0 0 = Ok (c, next) /\ repo_assign c "nonlinear_solver" half_valid next = (c', next', Some ValueError) /\
  max_iterations c = Some (SPlain (VAtom (AInt 10))) /\ max_iterations c' = Some (SPlain (VAtom (AInt 5))).
Proof.
  destruct (repo_new 0 0 0) as [[c n]|e] eqn:E; [|vm_compute in E; discriminate].
  destruct (repo_assign c "nonlinear_solver" half_valid n) as [[c' n'] e'] eqn:F.
  exists c, n, c', n'. split; [reflexivity|]. vm_compute in E. injection E as <- <-. vm_compute in F. injection F as <- <- <-. vm_compute. auto.
Qed.
Print Assumptions c20_dictionary_refuted.

(** ** Cases *)

Definition a_solver : cfg atom := match repo_new 7 8 0 with Ok (c, _) => c | Err _ => Cfg "" 0 0 [] end.
Definition a_next : nat := match repo_new 7 8 0 with Ok (_, n) => n | Err _ => 0 end.
Definition float (q : Q) : value := VAtom (AFloat q).

(** Two rejected and two accepted values of the Mach number; the transient scheme is selected and configured. *)
Definition a_script : list (op atom) :=
  [OAssign [] "mach_number" (float (1 # 2)); OAssign [] "mach_number" (float (-1)); OAssign [] "time" (VStr "transient");
   OAssign ["time"] "scheme" (VStr "bdf2"); OUpdate ["time"; "timer"] [(["interval"], VAtom (ATuple [0%Q; 2%Q])); (["step"], float (1 # 10))];
   OAssign ["io"] "vtk" (VBool true); OAssign ["io"; "vtk"] "rate" (VAtom (AInt 0)); OAssign ["io"; "vtk"] "rate" (VAtom (AInt 5))].

Definition look (c : cfg atom) (path : list string) (name : string) : option (slot atom) :=
  match fold_left (fun s p => match s with Some (SSub c) => dget (cfg_data c) p | _ => None end) path (Some (SSub c)) with
  | Some (SSub s) => dget (cfg_data s) name
  | _ => None
  end.

Example c20_example :
  let c := fst (repo_run a_solver a_next a_script) in
  repo_new 7 8 0 = Ok (a_solver, a_next) /\
  repo_assign a_solver "mach_number" (float (-1)) a_next = (a_solver, a_next, Some ValueError) /\
  look c ["io"; "vtk"] "rate" = Some (SPlain (VAtom (AInt 5))) /\
  look c ["time"; "timer"] "interval" = Some (SPlain (VAtom (ATuple [0%Q; 2%Q]))) /\
  Forall (accepted_statement (repo_classes true)) a_script.
Proof.
  split; [vm_compute; reflexivity|]. split; [vm_compute; reflexivity|]. split; [vm_compute; reflexivity|]. split; [vm_compute; reflexivity|].
  unfold a_script. repeat apply Forall_cons; try apply Forall_nil; cbn; try constructor.
  intros k v [E|[E|[]]]; injection E as _ <-; constructor.
Qed.

Example c21_example :
  look a_solver [] "mach_number" = Some (SParam 0 (float (3 # 10))) /\
  look (fst (repo_run a_solver a_next a_script)) [] "mach_number" = Some (SParam 0 (float (1 # 2))) /\
  look (fst (repo_run a_solver a_next (a_script ++ [OClear []]))) [] "mach_number" <> look a_solver [] "mach_number".
Proof. split; [vm_compute; reflexivity|]. split; [vm_compute; reflexivity|]. vm_compute. discriminate. Qed.

Example c22_example : shares_root_and_mesh a_solver /\
  match look (fst (repo_run a_solver a_next a_script)) ["time"] "timer" with Some (SSub s) => cfg_root s = 7 /\ cfg_mesh s = 8 | _ => False end.
Proof.
  split.
  - apply (c22_default (repo_classes true) repo_depth "CompressibleFlowSolver" 7 8 0 a_solver a_next). vm_compute. reflexivity.
  - vm_compute. auto.
Qed.

Definition class_at (c : cfg atom) (path : list string) (name : string) : option string :=
  match look c path name with Some (SSub s) => Some (cfg_class s) | _ => None end.

Example c23_example :
  let c := fst (repo_run a_solver a_next a_script) in
  class_at c [] "time" = Some "TransientConfig" /\ class_at c ["time"] "scheme" = Some "BDF2" /\
  repo_assign c "time" (VStr "transient") 100 = (c, 100, None) /\
  repo_assign c "riemann_solver" (VStr "lf") 100 = (c, 100, None) /\
  repo_assign c "riemann_solver" (VStr "LF") 100 = (c, 100, Some TypeError) /\
  class_at (fst (fst (repo_assign c "riemann_solver" (VStr "roe") 100))) [] "riemann_solver" = Some "Roe".
Proof. vm_compute. auto 10. Qed.

(** ** C22 for objects that may be stored in several places *)

(** Scripts that store an instance only while it is not used with another root or mesh: everything
    reachable agrees. *)
Theorem c22_objects : forall limit ops h, careful (hstep limit) [] ops h -> forall r i, hreach h r i -> labels h i = labels h r.
Proof. exact careful_shares. Qed.
Print Assumptions c22_objects.

(** The recursive pass ends on configurations that do not contain themselves. *)
Theorem c22_pass_ends : forall (rank : nat -> nat) limit h i root mesh, (forall a b, child h a b -> rank b < rank a) ->
  closed_heap h -> i < length h -> rank i < limit -> exists h', visit limit h i root mesh = Ok h'.
Proof. intros rank f h i r m. apply visit_total. Qed.
Print Assumptions c22_pass_ends.

(** Without the care it is false: an instance stored in a second solver follows the second one. *)
Theorem c22_shared_instance_refuted : exists ops h,
  hrun 10 [] ops = Ok h /\ child h 0 2 /\ child h 1 2 /\ labels h 0 = Some (0, 5) /\ labels h 2 = Some (1, 6).
Proof.
  exists [HNew 5; HNew 6; HDefault 0 "timer"; HAttach 1 "timer" 2], [mk_obj 0 5 [("timer", 2)]; mk_obj 1 6 [("timer", 2)]; mk_obj 1 6 []].
  split; [reflexivity|]. split; [exists (mk_obj 0 5 [("timer", 2)]), "timer"; cbn; auto|].
  split; [exists (mk_obj 1 6 [("timer", 2)]), "timer"; cbn; auto|]. auto.
Qed.
Print Assumptions c22_shared_instance_refuted.

(** A free-standing configuration with a part of its own, stored into a solver. *)
Example c22_objects_example :
  let ops := [HNew 5; HNew 6; HDefault 1 "timer"; HAttach 0 "time" 1] in
  exists h, careful (hstep 10) [] ops h /\ hreach h 0 2 /\ labels h 2 = Some (0, 5).
Proof.
  cbn. eexists. split.
  - eapply careful_cons; [reflexivity | discriminate |]. eapply careful_cons; [reflexivity | discriminate |].
    eapply careful_cons; [reflexivity | discriminate |]. eapply careful_cons; [reflexivity | | apply careful_nil].
    intros p name ch [= <- <- <-] i j (o & n & E & I) Hj Ni. exfalso.
    destruct i as [|[|[|i]]]; cbn in E; try (injection E as <-; cbn in I; contradiction); [|destruct i; discriminate].
    apply Ni. constructor.
  - split; [|reflexivity]. apply (hreach_step _ 0 1 2); [eexists; exists "time"; split; [reflexivity | left; reflexivity]|].
    apply (hreach_step _ 1 2 2); [eexists; exists "timer"; split; [reflexivity | left; reflexivity] | constructor].
Qed.
