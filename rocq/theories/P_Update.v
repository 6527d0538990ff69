(** Flattened settings and nested updates (C25, C26). *)
From Coq Require Import String List Bool Arith ZArith QArith Lia.
From Verif Require Import Base Dict M_Config S_Config M_Classes L_ConfigTree L_Config L_Default L_Nested L_RoundTrip L_Conform L_Classes.
Import ListNotations.
Local Open Scope string_scope.
Local Open Scope nat_scope.
Local Open Scope list_scope.

Section Generic.
Context {A : Type}.
Variable classes : dict (class A).
Variable registry : dict (dict string).
Variable depth : nat.
Notation update := (@update A classes registry depth).
Notation to_tree := (@to_tree A classes).
Notation setting := (@setting A classes).

(** ** C25 *)

(** The flattened tree holds every readable setting under its dotted path, and nothing else. *)
Theorem c25_tree_complete : forall c path v, (forall s, reaches c s -> exists C, dget classes (cfg_class s) = Some C) ->
  (In (path, v) (to_tree c) <-> setting c path v).
Proof. intros. apply tree_settings. assumption. Qed.

Lemma conforms_known : forall c, good_table classes registry -> conforms classes registry c -> forall s, reaches c s -> exists C, dget classes (cfg_class s) = Some C.
Proof.
  intros c T H s R. induction R as [c|cls r m data k s s' I R IH].
  - inversion H; subst. eauto.
  - apply IH. inversion H as [? ? ? ? C HC HK HS]; subst. destruct (HS _ _ I) as (kd & _ & J). inversion J; subst; assumption.
Qed.

(** Updating any configuration of the same class with the flattened tree of another one raises nothing
    and gives it exactly the settings of the other one. *)
Theorem c25_round_trip : forall t d next, good_table classes registry ->
  conforms classes registry t -> conforms classes registry d -> cfg_class d = cfg_class t ->
  (forall s, reaches t s -> forall r m n, exists c' n', instantiate classes depth (cfg_class s) r m n = Ok (c', n') /\ conforms classes registry c') ->
  exists d' next', update d (to_tree t) next = (d', next', None) /\ cfg_class d' = cfg_class t /\
    forall path v, setting d' path v <-> setting t path v.
Proof.
  intros t d n T Ht Hd K D. destruct (round_trip classes registry depth T t d n Ht Hd K D) as (d' & n' & E & H & K' & Q).
  exists d', n'. split; [exact E|]. split; [congruence|]. intros p v.
  rewrite <- (c25_tree_complete d') by (apply conforms_known; assumption). rewrite <- (c25_tree_complete t) by (apply conforms_known; assumption).
  rewrite Q. reflexivity.
Qed.

(** ** C26 *)

(** Keyword arguments stand for assignments of the keys without dot, in order, followed by one
    [update] of every sub-configuration with dotted keys. *)
Theorem c26_script : forall c kw next, proper_keys kw -> keyword_first kw -> nests_below_subs classes c kw ->
  update c kw next =
  match run_stop classes registry depth c next (assignments (stored c) kw) with
  | (c1, next1, None) => run_stop classes registry depth c1 next1 (nested_updates (stored c1) kw)
  | r => r
  end.
Proof.
  intros c kw n H1 H2 H3. rewrite update_script by assumption.
  destruct (run_stop _ _ _ _ _ _) as [[c1 n1] [e|]]; reflexivity.
Qed.

(** Keys below one sub-configuration: dotted or as a nested dictionary. *)
Theorem c26_dotted_is_nested : forall c k s kw next, dget (cfg_data c) k = Some (SSub s) ->
  (exists cls, find_kind classes (cfg_class c) k = Some (KUnique cls)) \/ (exists iface cls, find_kind classes (cfg_class c) k = Some (KInterface iface cls)) ->
  no_plain c k -> proper_keys kw -> kw <> [] ->
  update c (under k kw) next = update c [([k], VDict kw)] next.
Proof. intros. eapply dotted_is_nested; eassumption. Qed.

(** The order of keys only matters among the keys without dot and below one name. *)
Theorem c26_order : forall c kw kw' next,
  proper_keys kw -> keyword_first kw -> nests_below_subs classes c kw ->
  proper_keys kw' -> keyword_first kw' -> nests_below_subs classes c kw' ->
  singles kw = singles kw' -> dotted_names kw = dotted_names kw' -> (forall x, below_name x kw = below_name x kw') ->
  update c kw next = update c kw' next.
Proof. intros. apply same_script; assumption. Qed.

(** Keys whose first name is not stored have no effect. *)
Theorem c26_unknown_ignored : forall c kw next, proper_keys kw -> keyword_first kw -> nests_below_subs classes c kw ->
  update c kw next = update c (known_part (stored c) kw) next.
Proof. intros. apply unknown_ignored; assumption. Qed.

(** A dotted key before the keyword of its parent raises. *)
Theorem c26_keyword_last_raises : forall c k s a v word next, dget (cfg_data c) k = Some (SSub s) ->
  update c [([k; a], v); ([k], VStr word)] next = (c, next, Some TypeError).
Proof.
  intros c k s a v w n E. unfold M_Config.update. generalize (kdepth [([k; a], v); ([k], VStr w)]). intros f.
  cbn [update_fuel map fst]. unfold update_keys, update_key. cbn -[String.eqb update_fuel set_item]. rewrite !String.eqb_refl.
  cbn -[String.eqb update_fuel set_item]. rewrite ?String.eqb_refl. unfold stored. rewrite E. reflexivity.
Qed.
End Generic.

Print Assumptions c25_tree_complete.
Print Assumptions c25_round_trip.
Print Assumptions c26_script.
Print Assumptions c26_dotted_is_nested.
Print Assumptions c26_order.
Print Assumptions c26_unknown_ignored.
Print Assumptions c26_keyword_last_raises.

(** ** The solver of the repository *)

Notation plain_run := (run (repo_classes false) repo_registry repo_depth).
Notation plain_new := (instantiate (repo_classes false) repo_depth "CompressibleFlowSolver").

(** The solver without its [io] option: the settings at the end of any script restore any other solver,
    whatever happened to it before. *)
Theorem c25_solver : forall root mesh next root' mesh' next' c n d n' ops ops' m,
  plain_new root mesh next = Ok (c, n) -> plain_new root' mesh' next' = Ok (d, n') ->
  (forall o, In o ops -> good_statement (repo_classes false) repo_registry plain_parts o) ->
  (forall o, In o ops' -> good_statement (repo_classes false) repo_registry plain_parts o) ->
  exists d' m', update (repo_classes false) repo_registry repo_depth (fst (plain_run d n' ops')) (to_tree (repo_classes false) (fst (plain_run c n ops))) m
      = (d', m', None) /\
    forall path v, setting (repo_classes false) d' path v <-> setting (repo_classes false) (fst (plain_run c n ops)) path v.
Proof.
  intros r m0 n0 r' m' n0' c n d n' ops ops' m Ec Ed Gc Gd.
  assert (P : plain_parts "CompressibleFlowSolver") by (left; reflexivity).
  assert (K : forall r m n c n', plain_new r m n = Ok (c, n') -> fine (repo_classes false) repo_registry plain_parts c /\ cfg_class c = "CompressibleFlowSolver").
  { intros a b x y z E. assert (Q : cfg_class y = "CompressibleFlowSolver") by (eapply instantiate_labelled; exact E).
    split; [|exact Q]. split; [eapply instantiate_conforms; [apply table_good | apply repo_closed | exact P | exact E] | rewrite Q; exact P]. }
  destruct (K _ _ _ _ _ Ec) as [Fc Kc]. destruct (K _ _ _ _ _ Ed) as [Fd Kd].
  destruct (fine_run _ _ repo_depth (table_good false) _ repo_closed repo_buildable ops c n Fc Gc) as [Fc' Kc'].
  destruct (fine_run _ _ repo_depth (table_good false) _ repo_closed repo_buildable ops' d n' Fd Gd) as [Fd' Kd'].
  destruct (c25_round_trip (repo_classes false) repo_registry repo_depth (fst (plain_run c n ops)) (fst (plain_run d n' ops')) m) as (x & y & E & _ & H).
  - apply table_good.
  - apply Fc'.
  - apply Fd'.
  - congruence.
  - apply (fine_defaults _ _ repo_depth (table_good false) _ repo_closed repo_buildable _ Fc').
  - exists x, y. auto.
Qed.
Print Assumptions c25_solver.

(** With the [io] option it is false: the flattened settings of a new solver are rejected by a new
    solver, because the log stream is called 'dream' and not 'log'. *)
Notation full_new := (instantiate (repo_classes true) repo_depth "CompressibleFlowSolver").
Notation full_update := (update (repo_classes true) repo_registry repo_depth).
Notation full_tree := (to_tree (repo_classes true)).

Theorem c25_log_refuted : match full_new 0 0 0 with
  | Ok (c, n) => snd (full_update c (full_tree c) n) = Some ValueError
  | Err _ => False
  end.
Proof. vm_compute. reflexivity. Qed.
Print Assumptions c25_log_refuted.

(** Without log stream, an activated stream is dropped: the solver that is updated has no such option. *)
Theorem c25_stream_refuted : match full_new 0 0 0 with
  | Ok (c, n) =>
      let quiet := run (repo_classes true) repo_registry repo_depth c n [OAssign ["io"] "log" (VBool false)] in
      let plots := run (repo_classes true) repo_registry repo_depth (fst quiet) (snd quiet) [OAssign ["io"] "vtk" (VBool true)] in
      snd (full_update (fst quiet) (full_tree (fst plots)) (snd plots)) = None /\
      kget (full_tree (fst plots)) ["io"; "vtk"] = Some (VStr "vtk") /\
      kget (full_tree (fst (fst (full_update (fst quiet) (full_tree (fst plots)) (snd plots))))) ["io"; "vtk"] = None
  | Err _ => False
  end.
Proof. vm_compute. auto. Qed.
Print Assumptions c25_stream_refuted.

(** The same for a nested update: activating a stream by keyword argument is silently ignored. *)
Theorem c26_activation_refuted : match full_new 0 0 0 with
  | Ok (c, n) => full_update c [(["io"], VDict [(["vtk"], VBool true)])] n = (c, n, None)
  | Err _ => False
  end.
Proof. vm_compute. reflexivity. Qed.
Print Assumptions c26_activation_refuted.

(** ** Cases *)

Definition p_solver : cfg atom := match plain_new 7 8 0 with Ok (c, _) => c | Err _ => Cfg "" 0 0 [] end.
Definition p_next : nat := match plain_new 7 8 0 with Ok (_, n) => n | Err _ => 0 end.

Definition p_script : list (op atom) :=
  [OAssign [] "mach_number" (fl (1 # 2)); OAssign [] "time" (VStr "transient"); OAssign ["time"] "scheme" (VStr "bdf2");
   OUpdate ["time"; "timer"] [(["interval"], VAtom (ATuple [0%Q; 2%Q])); (["step"], fl (1 # 10))];
   OAssign [] "dynamic_viscosity" (VStr "sutherland"); OAssign [] "prandtl_number" (fl (7 # 10))].

Example c25_example :
  let t := to_tree (repo_classes false) (fst (plain_run p_solver p_next p_script)) in
  plain_new 7 8 0 = Ok (p_solver, p_next) /\
  kget t ["time"; "timer"; "interval"] = Some (VAtom (ATuple [0%Q; 2%Q])) /\ kget t ["time"] = Some (VStr "transient") /\
  kget t ["prandtl_number"] = Some (fl (7 # 10)) /\ kget (to_tree (repo_classes false) p_solver) ["prandtl_number"] = None /\
  match update (repo_classes false) repo_registry repo_depth p_solver t 50 with (d', _, e) => to_tree (repo_classes false) d' = t /\ e = None end.
Proof. vm_compute. auto 10. Qed.

Example c25_statements : Forall (good_statement (repo_classes false) repo_registry plain_parts) p_script.
Proof.
  unfold p_script. repeat apply Forall_cons; try apply Forall_nil; cbn; try constructor.
  intros k v [E|[E|[]]]; injection E as _ <-; constructor.
Qed.

(** A keyword, dotted keys below two names, an unknown key. *)
Definition p_kw : kwargs atom :=
  [(["time"], VStr "transient"); (["time"; "timer"; "step"], fl (1 # 10)); (["fem"; "order"], int 4);
   (["time"; "scheme"], VStr "bdf2"); (["nonsense"; "x"], int 1); (["mach_number"], fl 0)].

Example c26_example :
  proper_keys p_kw /\ keyword_first p_kw /\ nests_below_subs (repo_classes false) p_solver p_kw /\
  dotted_names p_kw = ["time"; "fem"; "nonsense"] /\
  match update (repo_classes false) repo_registry repo_depth p_solver p_kw p_next with
  | (c, _, e) => e = None /\ kget (to_tree (repo_classes false) c) ["time"; "scheme"] = Some (VStr "bdf2") /\
      kget (to_tree (repo_classes false) c) ["time"; "timer"; "step"] = Some (fl (1 # 10)) /\
      kget (to_tree (repo_classes false) c) ["fem"; "order"] = Some (int 4)
  end.
Proof.
  split; [|split; [|split; [|split]]].
  - split; [apply NoDup_cons_iff|].
    + repeat (split; [cbn; intuition discriminate|]; try apply NoDup_cons_iff). constructor.
    + cbn. intuition discriminate.
  - intros l1 l2 n args v E NA I. do 6 (destruct l1 as [|? l1]; [injection E as <- <- <- <-; cbn in I; intuition (discriminate || congruence)|injection E as _ E]).
    destruct l1; discriminate.
  - assert (K : forall n, In n ["time"; "fem"; "nonsense"] -> no_plain p_solver n /\ forall d fs, find_kind (repo_classes false) (cfg_class p_solver) n <> Some (KPlain d fs)).
    { intros n I. split.
      - intros v J.
        assert (X : existsb (fun ks : string * slot atom => match ks with (k, SPlain _) => existsb (String.eqb k) ["time"; "fem"; "nonsense"] | _ => false end) (cfg_data p_solver) = false) by (vm_compute; reflexivity).
        apply not_true_iff_false in X. apply X. apply existsb_exists. exists (n, SPlain v). split; [exact J|].
        apply existsb_exists. exists n. split; [exact I | apply String.eqb_refl].
      - intros d fs. cbn in I. repeat (destruct I as [<-|I]; [vm_compute; discriminate|]). contradiction. }
    intros n a args v I. apply K. cbn in I.
    repeat (destruct I as [E|I]; [try discriminate E; injection E as <- _ _ _; cbn; tauto|]). contradiction.
  - reflexivity.
  - vm_compute. auto.
Qed.
