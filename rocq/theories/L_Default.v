(** Default configurations, statements on sub-configurations, equivalent keyword arguments. *)
From Coq Require Import String List Bool Arith Lia.
From Verif Require Import Base Dict M_Config S_Config L_Stream L_ConfigTree L_Config L_Nested.
Import ListNotations.
Local Open Scope string_scope.
Local Open Scope list_scope.

Section L.
Context {A : Type}.
Variable classes : dict (class A).
Variable registry : dict (dict string).
Variable depth : nat.
Notation update := (update classes registry depth).
Notation assign := (assign classes registry depth).
Notation step := (step classes registry depth).
Notation run := (run classes registry depth).
Notation run_stop := (run_stop classes registry depth).
Notation instantiate := (@instantiate A classes).
Notation has_defaults := (@has_defaults A classes).
Notation option_default := (@option_default A classes).

Lemma reset_fold_err : forall inst (opts : list (string * kind A)) e, fold_left (reset_option inst) opts (Err e) = Err e.
Proof. induction opts as [|nk opts IH]; intros; cbn; auto. Qed.

Section Fold.
Variable inst : string -> nat -> result (cfg A * nat).
Variable P : cfg A -> Prop.
Variable B : nat -> nat -> cfg A -> Prop.

(** The options of a freshly built configuration. *)
Lemma reset_fold : forall (opts : list (string * kind A)) data n data' n',
  (forall c x s y, inst c x = Ok (s, y) -> cfg_class s = c /\ has_defaults s) ->
  NoDup (map fst opts) -> (forall k, In k (map fst opts) -> dget data k = None) ->
  fold_left (reset_option inst) opts (Ok (data, n)) = Ok (data', n') ->
  (forall name k, In (name, k) opts -> option_default k (dget data' name)) /\
  (forall k, ~ In k (map fst opts) -> dget data' k = dget data k).
Proof.
  induction opts as [|[name k] opts IH]; intros data n data' n' HI ND HN E; cbn in E.
  - injection E as <- <-. split; [intros ? ? [] | auto].
  - cbn in ND. apply NoDup_cons_iff in ND. destruct ND as [NI ND].
    assert (G : forall data1 n1, fold_left (reset_option inst) opts (Ok (data1, n1)) = Ok (data', n') ->
      (forall x, x <> name -> dget data1 x = dget data x) -> option_default k (dget data1 name) ->
      (forall name0 k0, In (name0, k0) ((name, k) :: opts) -> option_default k0 (dget data' name0)) /\
      (forall k0, ~ In k0 (map fst ((name, k) :: opts)) -> dget data' k0 = dget data k0)).
    { intros data1 n1 E1 O D. destruct (IH data1 n1 data' n' HI ND) as [H1 H2]; [|exact E1|].
      - intros x Ix. rewrite O; [apply HN; right; exact Ix|]. intros ->. apply NI. exact Ix.
      - split.
        + intros name0 k0 [Q|I]; [|apply H1; exact I]. injection Q as <- <-. rewrite H2 by exact NI. exact D.
        + intros k0 N. rewrite H2 by (intros I; apply N; right; exact I). apply O. intros ->. apply N. left. reflexivity. }
    destruct k as [d fs|d fs|cls|iface cls|cls []].
    + destruct (fs d) as [v|e] eqn:F; cbn in E; [|rewrite reset_fold_err in E; discriminate].
      apply G in E; [exact E | intros x N; apply dget_dset_other; congruence | rewrite dget_dset_same; constructor; exact F].
    + destruct (fs d) as [v|e] eqn:F; cbn in E; [|rewrite reset_fold_err in E; discriminate].
      apply G in E; [exact E | intros x N; apply dget_dset_other; congruence | rewrite dget_dset_same; constructor; exact F].
    + destruct (inst cls n) as [[s y]|e] eqn:F; cbn in E; [|rewrite reset_fold_err in E; discriminate]. destruct (HI _ _ _ _ F).
      apply G in E; [exact E | intros x N; apply dget_dset_other; congruence | rewrite dget_dset_same; constructor; assumption].
    + destruct (inst cls n) as [[s y]|e] eqn:F; cbn in E; [|rewrite reset_fold_err in E; discriminate]. destruct (HI _ _ _ _ F).
      apply G in E; [exact E | intros x N; apply dget_dset_other; congruence | rewrite dget_dset_same; constructor; assumption].
    + destruct (inst cls n) as [[s y]|e] eqn:F; cbn in E; [|rewrite reset_fold_err in E; discriminate]. destruct (HI _ _ _ _ F).
      apply G in E; [exact E | intros x N; apply dget_dset_other; congruence | rewrite dget_dset_same; constructor; assumption].
    + apply G in E; [exact E | auto |]. rewrite HN by (left; reflexivity). constructor.
Qed.

(** Parameter identities of a freshly built configuration. *)
Lemma reset_ids : forall (opts : list (string * kind A)) data n data' n' lo,
  (forall c x s y, inst c x = Ok (s, y) -> x <= y /\ forall id, uses_param s id -> x <= id < y) ->
  lo <= n ->
  (forall k id v, In (k, SParam id v) data -> lo <= id < n) ->
  (forall k s id, In (k, SSub s) data -> uses_param s id -> lo <= id < n) ->
  fold_left (reset_option inst) opts (Ok (data, n)) = Ok (data', n') ->
  n <= n' /\ (forall k id v, In (k, SParam id v) data' -> lo <= id < n') /\ (forall k s id, In (k, SSub s) data' -> uses_param s id -> lo <= id < n').
Proof.
  induction opts as [|[name k] opts IH]; intros data n data' n' lo HI Lo H1 H2 E; cbn in E.
  - injection E as <- <-. split; [lia|]. auto.
  - assert (K1 : forall v k id w n2, n <= n2 -> In (k, SParam id w) (dset data name (SPlain v)) -> lo <= id < n2).
    { intros v k0 id w n2 L I. apply In_dset in I. destruct I as [Q|I]; [discriminate|]. pose proof (H1 _ _ _ I). lia. }
    assert (Sub : forall s y, n <= y -> (forall id, uses_param s id -> n <= id < y) ->
      fold_left (reset_option inst) opts (Ok (dset data name (SSub s), y)) = Ok (data', n') ->
      n <= n' /\ (forall k id v, In (k, SParam id v) data' -> lo <= id < n') /\ (forall k s id, In (k, SSub s) data' -> uses_param s id -> lo <= id < n')).
    { intros s y L U E'. apply (IH _ _ _ _ lo) in E'; [destruct E' as (a & b & c0); split; [lia | auto] | exact HI | lia | |].
      - intros k0 id w I. apply In_dset in I. destruct I as [Q|I]; [discriminate|]. pose proof (H1 _ _ _ I). lia.
      - intros k0 s0 id I Us. apply In_dset in I. destruct I as [Q|I]; [|pose proof (H2 _ _ _ I Us); lia].
        injection Q as -> ->. pose proof (U _ Us). lia. }
    destruct k as [d fs|d fs|cls|iface cls|cls []].
    + destruct (fs d) as [v|e] eqn:F; cbn in E; [|rewrite reset_fold_err in E; discriminate].
      apply (IH _ _ _ _ lo) in E; [exact E | exact HI | exact Lo | intros; eapply K1; [|eassumption]; lia |].
      intros k0 s id I Us. apply In_dset in I. destruct I as [Q|I]; [discriminate | eauto].
    + destruct (fs d) as [v|e] eqn:F; cbn in E; [|rewrite reset_fold_err in E; discriminate].
      apply (IH _ _ _ _ lo) in E; [destruct E as (a & b & c0); split; [lia | auto] | exact HI | lia | |].
      * intros k0 id w I. apply In_dset in I. destruct I as [Q|I]; [injection Q as _ -> _; lia | pose proof (H1 _ _ _ I); lia].
      * intros k0 s id I Us. apply In_dset in I. destruct I as [Q|I]; [discriminate | pose proof (H2 _ _ _ I Us); lia].
    + destruct (inst cls n) as [[s y]|e] eqn:F; cbn in E; [|rewrite reset_fold_err in E; discriminate]. destruct (HI _ _ _ _ F). eapply Sub; eassumption.
    + destruct (inst cls n) as [[s y]|e] eqn:F; cbn in E; [|rewrite reset_fold_err in E; discriminate]. destruct (HI _ _ _ _ F). eapply Sub; eassumption.
    + destruct (inst cls n) as [[s y]|e] eqn:F; cbn in E; [|rewrite reset_fold_err in E; discriminate]. destruct (HI _ _ _ _ F). eapply Sub; eassumption.
    + eapply IH; eassumption.
Qed.
End Fold.

Lemma instantiate_defaults : (forall cls C, dget classes cls = Some C -> NoDup (map fst (k_opts C))) ->
  forall f cls r m n c n', instantiate f cls r m n = Ok (c, n') -> cfg_class c = cls /\ has_defaults c.
Proof.
  intros D. induction f as [|f IH]; intros cls r m n c n' E; cbn [M_Config.instantiate] in E; [discriminate|].
  destruct (dget classes cls) as [C|] eqn:HC; [|discriminate].
  destruct (fold_left _ _ _) as [[data n1]|e] eqn:F; cbn in E; [|discriminate]. injection E as <- <-.
  split; [reflexivity|]. apply reset_fold in F; [|intros; eapply IH; eassumption | eapply D; exact HC | reflexivity].
  econstructor; [exact HC|]. apply F.
Qed.

Lemma uses_param_cfg : forall cls r m data id, uses_param (Cfg cls r m data) id ->
  (exists k v, In (k, SParam id v) data) \/ exists k s, In (k, SSub s) data /\ @uses_param A s id.
Proof.
  intros cls r m data id (s & name & v & R & I). inversion R as [|cls0 r0 m0 data0 k s1 s2 I' R']; subst; [left; eauto|].
  right. exists k, s1. split; [exact I'|]. exists s, name, v. auto.
Qed.

Lemma instantiate_ids : forall f cls r m n c n', instantiate f cls r m n = Ok (c, n') -> n <= n' /\ forall id, uses_param c id -> n <= id < n'.
Proof.
  induction f as [|f IH]; intros cls r m n c n' E; cbn [M_Config.instantiate] in E; [discriminate|].
  destruct (dget classes cls) as [C|] eqn:HC; [|discriminate].
  destruct (fold_left _ _ _) as [[data n1]|e] eqn:F; cbn in E; [|discriminate]. injection E as <- <-.
  apply (reset_ids _ _ _ _ _ _ n) in F.
  - destruct F as (L & F1 & F2). cbn. split; [exact L|]. intros id U. apply uses_param_cfg in U. destruct U as [(k & v & I)|(k & s & I & U)]; eauto.
  - intros; eapply IH; eassumption.
  - lia.
  - intros k id v [].
  - intros k s id [].
Qed.

(** ** Statements on a sub-configuration *)

Lemma step_below : forall c p s n o, dget (cfg_data c) p = Some (SSub s) ->
  step c n (below p o) = let '(s', n', e) := step s n o in (with_data c (dset (cfg_data c) p (SSub s')), n', e).
Proof. intros c p s n o E. destruct o as [path name v|path kw|path]; cbn [below M_Config.step at_path]; rewrite E; reflexivity. Qed.

Lemma dset_dset : forall V (d : dict V) k v w, dset (dset d k v) k w = dset d k w.
Proof.
  induction d as [|[k' v'] d IH]; intros k v w; cbn; [rewrite String.eqb_refl; reflexivity|].
  destruct (String.eqb k k') eqn:E; cbn; rewrite E; [reflexivity | rewrite IH; reflexivity].
Qed.

Lemma with_data_with_data : forall (c : cfg A) d d', with_data (with_data c d) d' = with_data c d'.
Proof. destruct c; reflexivity. Qed.

Lemma run_below : forall ops c p s n, dget (cfg_data c) p = Some (SSub s) ->
  run c n (map (below p) ops) = (with_data c (dset (cfg_data c) p (SSub (fst (run s n ops)))), snd (run s n ops)).
Proof.
  induction ops as [|o ops IH]; intros c p s n E; cbn [map M_Config.run].
  - cbn. rewrite dset_same by exact E. rewrite with_data_same. reflexivity.
  - rewrite (step_below _ _ _ _ _ E). destruct (step s n o) as [[s1 n1] e].
    rewrite (IH (with_data c (dset (cfg_data c) p (SSub s1))) p s1 n1) by (rewrite with_data_data; apply dget_dset_same).
    rewrite with_data_with_data, with_data_data, dset_dset. reflexivity.
Qed.

(** ** Equivalent keyword arguments *)


Lemma singles_under : forall k (kw : kwargs A), ~ In [] (map fst kw) -> singles (under k kw) = [].
Proof.
  induction kw as [|[p v] kw IH]; intros N; [reflexivity|]. cbn in *.
  destruct p as [|a p]; [exfalso; apply N; left; reflexivity|]. apply IH. tauto.
Qed.
Lemma below_under : forall k (kw : kwargs A), ~ In [] (map fst kw) -> below_name k (under k kw) = kw.
Proof.
  induction kw as [|[p v] kw IH]; intros N; [reflexivity|]. cbn in *.
  destruct p as [|a p]; [exfalso; apply N; left; reflexivity|]. cbn. rewrite String.eqb_refl. cbn. f_equal. apply IH. tauto.
Qed.
Lemma dotted_under : forall k (kw : kwargs A), ~ In [] (map fst kw) -> kw <> [] -> dotted_names (under k kw) = [k].
Proof.
  induction kw as [|[p v] kw IH]; intros N NE; [congruence|]. cbn in N.
  destruct p as [|a p]; [exfalso; apply N; left; reflexivity|].
  change (dotted_names (under k ((a :: p, v) :: kw))) with (k :: filter (fun n => negb (String.eqb k n)) (dotted_names (under k kw))).
  f_equal. destruct kw as [|x kw]; [reflexivity|]. rewrite IH; [cbn; rewrite String.eqb_refl; reflexivity | tauto | discriminate].
Qed.
Lemma under_proper : forall k (kw : kwargs A), proper_keys kw -> proper_keys (under k kw).
Proof.
  intros k kw [ND NE]. unfold under, proper_keys. rewrite map_map. cbn. split.
  - clear NE. induction kw as [|[p v] kw IH]; cbn in *; [constructor|]. apply NoDup_cons_iff in ND. destruct ND as [N ND].
    constructor; [|apply IH; exact ND]. intros I. apply in_map_iff in I. destruct I as ([q w] & E & I). cbn in E.
    injection E as <-. apply N. apply (in_map fst) in I. exact I.
  - intros I. apply in_map_iff in I. destruct I as (x & E & _). discriminate.
Qed.
Lemma under_keyword_first : forall k (kw : kwargs A), ~ In [] (map fst kw) -> keyword_first (under k kw).
Proof.
  intros k kw NE l1 l2 n args v E _ I.
  assert (X : In [n] (map fst (under k kw))) by (rewrite E, map_app; apply in_or_app; right; right; exact I).
  unfold under in X. rewrite map_map in X. apply in_map_iff in X. destruct X as ([p w] & Q & J). cbn in Q. injection Q as -> ->.
  apply NE. apply (in_map fst) in J. exact J.
Qed.

(** Dotted keys below one sub-configuration are the nested dictionary. *)
Lemma dotted_is_nested : forall c k s kw n, dget (cfg_data c) k = Some (SSub s) ->
  (exists cls, find_kind classes (cfg_class c) k = Some (KUnique cls)) \/ (exists iface cls, find_kind classes (cfg_class c) k = Some (KInterface iface cls)) ->
  no_plain c k -> proper_keys kw -> kw <> [] ->
  update c (under k kw) n = update c [([k], VDict kw)] n.
Proof.
  intros c k s kw n E K NP PK NE. pose proof PK as [ND N0].
  assert (KP : forall d fs, find_kind classes (cfg_class c) k <> Some (KPlain d fs)) by (intros d fs Q; destruct K as [(x & Q')|(x & y & Q')]; congruence).
  rewrite update_script.
  - unfold assignments. rewrite singles_under by exact N0. cbn [filter map M_Config.run_stop].
    unfold nested_updates. rewrite dotted_under by assumption. unfold stored. cbn [filter]. rewrite E. cbn [map].
    rewrite below_under by exact N0.
    rewrite update_script.
    + unfold assignments, nested_updates. cbn [singles flat_map fst snd app filter dotted_names map]. unfold stored. rewrite E. cbn [map M_Config.run_stop M_Config.step at_path fst snd].
      unfold M_Config.assign, M_Config.set_option. destruct K as [(cls & Q)|(iface & cls & Q)]; rewrite Q; unfold update_sub; rewrite E;
        destruct (update s kw n) as [[s' n'] [e|]]; reflexivity.
    + split; [repeat constructor; auto | intros [Q|[]]; discriminate].
    + intros l1 l2 m args v Q NA I. destruct l1 as [|x l1]; cbn in Q; [injection Q as _ <- _ <-; destruct I|].
      destruct l1; discriminate.
    + intros m a args v [Q|[]]; discriminate.
  - apply under_proper. exact PK.
  - apply under_keyword_first. exact N0.
  - intros m a args v I. unfold under in I. apply in_map_iff in I. destruct I as ([p w] & Q & _). cbn in Q. injection Q as <- _ _. auto.
Qed.

(** Statements without effect on other options. *)
Lemma assign_stored : forall c name v n x, name <> x -> stored (fst (fst (assign c name v n))) x = stored c x.
Proof.
  intros c name v n x N. pose proof (set_option_differs classes registry depth update c name v n) as (_ & _ & _ & D).
  unfold stored, M_Config.assign. rewrite D by congruence. reflexivity.
Qed.

Lemma assigns_stored : forall l c n x, ~ In x (map fst l) ->
  stored (fst (fst (run_stop c n (map (fun nv : string * val A => OAssign [] (fst nv) (snd nv)) l)))) x = stored c x.
Proof.
  induction l as [|[m v] l IH]; intros c n x N; [reflexivity|]. cbn [map fst snd M_Config.run_stop M_Config.step at_path].
  pose proof (assign_stored c m v n x) as S1. cbn in N. destruct (assign c m v n) as [[c1 n1] [e|]]; cbn [fst] in *; [apply S1; tauto|].
  rewrite IH by tauto. apply S1. tauto.
Qed.


Lemma singles_known : forall known (kw : kwargs A), filter (fun nv => known (fst nv)) (singles (known_part known kw)) = filter (fun nv : string * val A => known (fst nv)) (singles kw).
Proof.
  intros known kw. unfold singles, known_part in *. induction kw as [|[p v] kw IH]; cbn; [reflexivity|]. destruct p as [|a p]; cbn; [exact IH|].
  destruct (known a) eqn:E; destruct p as [|b p]; cbn; rewrite ?E; try exact IH. f_equal. exact IH.
Qed.
Lemma below_known : forall known n (kw : kwargs A), known n = true -> below_name n (known_part known kw) = below_name n kw.
Proof.
  intros known n kw K. unfold below_name, known_part in *. induction kw as [|[p v] kw IH]; cbn; [reflexivity|]. destruct p as [|a [|b p]]; cbn; [exact IH| |].
  - destruct (known a); cbn; exact IH.
  - destruct (String.eqb a n) eqn:E.
    + apply String.eqb_eq in E. subst a. rewrite K. cbn. rewrite String.eqb_refl. cbn. f_equal. exact IH.
    + destruct (known a); cbn; rewrite ?E; exact IH.
Qed.
Lemma filter_filter_ne : forall (f g : string -> bool) l, filter f (filter g l) = filter (fun x => f x && g x) l.
Proof. induction l as [|x l IH]; cbn; [reflexivity|]. destruct (g x); cbn; rewrite ?andb_true_r, ?andb_false_r; destruct (f x); cbn; rewrite ?IH; reflexivity. Qed.
Lemma dotted_known : forall known (kw : kwargs A), dotted_names (known_part known kw) = filter known (dotted_names kw).
Proof.
  intros known kw. unfold known_part in *. induction kw as [|[p v] kw IH]; cbn; [reflexivity|]. destruct p as [|a [|b p]]; cbn; [exact IH| |].
  - destruct (known a); cbn; exact IH.
  - destruct (known a) eqn:E; cbn.
    + f_equal. rewrite IH, !filter_filter_ne. apply filter_ext. intros x. apply andb_comm.
    + rewrite IH, filter_filter_ne. apply filter_ext. intros x. destruct (String.eqb a x) eqn:Q; cbn; [|rewrite andb_true_r; reflexivity].
      apply String.eqb_eq in Q. subst x. rewrite E. reflexivity.
Qed.

(** A sublist keeps the order of keys. *)
Implicit Type kw : kwargs A.
Lemma known_proper : forall known kw, proper_keys kw -> proper_keys (known_part known kw).
Proof.
  intros known kw [ND NE]. split.
  - unfold known_part. clear NE. induction kw as [|x kw IH]; cbn in *; [constructor|]. apply NoDup_cons_iff in ND. destruct ND as [N ND].
    destruct (match fst x with [] => false | n :: _ => known n end); cbn; [|apply IH; exact ND]. constructor; [|apply IH; exact ND].
    intros I. apply N. apply in_map_iff in I. destruct I as (y & E & I). apply filter_In in I. rewrite <- E. apply in_map. tauto.
  - intros I. apply in_map_iff in I. destruct I as (y & E & I). apply filter_In in I. apply NE. rewrite <- E. apply in_map. tauto.
Qed.

Lemma filter_split : forall T (f : T -> bool) l l1 x l2, filter f l = l1 ++ x :: l2 ->
  exists m1 m2, l = m1 ++ x :: m2 /\ filter f m2 = l2.
Proof.
  induction l as [|y l IH]; intros l1 x l2 E; cbn in E; [destruct l1; discriminate|]. destruct (f y) eqn:F.
  - destruct l1 as [|z l1]; cbn in E.
    + injection E as -> <-. exists [], l. auto.
    + injection E as -> E. destruct (IH _ _ _ E) as (m1 & m2 & -> & Q). exists (z :: m1), m2. auto.
  - destruct (IH _ _ _ E) as (m1 & m2 & -> & Q). exists (y :: m1), m2. auto.
Qed.
Lemma known_keyword_first : forall known kw, keyword_first kw -> keyword_first (known_part known kw).
Proof.
  intros known kw H l1 l2 n args v E NA I. unfold known_part in E. apply filter_split in E. destruct E as (m1 & m2 & -> & <-).
  apply (H m1 m2 n args v eq_refl NA). apply in_map_iff in I. destruct I as (x & Q & I). rewrite <- Q. apply in_map. apply filter_In in I. tauto.
Qed.

Lemma unknown_ignored : forall c kw n, proper_keys kw -> keyword_first kw -> nests_below_subs classes c kw ->
  update c kw n = update c (known_part (stored c) kw) n.
Proof.
  intros c kw n PK KF NB. rewrite !update_script; try assumption.
  - assert (EA : assignments (stored c) (known_part (stored c) kw) = assignments (stored c) kw)
      by (unfold assignments; rewrite singles_known; reflexivity). rewrite EA.
    pose proof (assigns_stored (filter (fun nv : string * val A => stored c (fst nv)) (singles kw)) c n) as St.
    fold (assignments (stored c) kw) in St.
    destruct (run_stop c n (assignments (stored c) kw)) as [[c1 n1] [e|]]; [reflexivity|]. cbn [fst] in St.
    assert (Sub : forall x, stored c1 x = true -> stored c x = true).
    { intros x Hx. destruct (stored c x) eqn:Q; [reflexivity|]. rewrite St in Hx; [congruence|].
      intros I. apply in_map_iff in I. destruct I as (y & Ey & I). apply filter_In in I. destruct I as [_ I]. rewrite Ey in I. congruence. }
    f_equal. unfold nested_updates. rewrite dotted_known, filter_filter_ne.
    assert (EF : filter (fun x => stored c1 x && stored c x) (dotted_names kw) = filter (stored c1) (dotted_names kw)).
    { apply filter_ext. intros x. destruct (stored c1 x) eqn:Q; [rewrite (Sub x Q)|]; reflexivity. }
    rewrite EF. apply map_ext_in. intros x I. apply filter_In in I. rewrite below_known by (apply Sub; tauto). reflexivity.
  - apply known_proper. exact PK.
  - apply known_keyword_first. exact KF.
  - intros m a args v I. apply filter_In in I. eapply NB. apply I.
Qed.

(** The result only depends on the script. *)
Lemma same_script : forall c kw kw' n, proper_keys kw -> keyword_first kw -> nests_below_subs classes c kw ->
  proper_keys kw' -> keyword_first kw' -> nests_below_subs classes c kw' ->
  singles kw = singles kw' -> dotted_names kw = dotted_names kw' -> (forall x, below_name x kw = below_name x kw') ->
  update c kw n = update c kw' n.
Proof.
  intros c kw kw' n P1 K1 N1 P2 K2 N2 ES ED EB. rewrite !update_script by assumption. unfold assignments, nested_updates. rewrite ES, ED.
  destruct (run_stop c n _) as [[c1 n1] [e|]]; [reflexivity|]. f_equal. apply map_ext. intros x. rewrite EB. reflexivity.
Qed.
End L.
