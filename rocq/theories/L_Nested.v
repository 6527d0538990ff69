(** Lemmas on nested and dotted updates (C26). *)
From Coq Require Import String List Bool Arith Lia.
From Verif Require Import Base Dict M_Config S_Config L_Stream L_ConfigTree L_Config.
Import ListNotations.
Local Open Scope string_scope.
Local Open Scope list_scope.

Section L.
Context {A : Type}.
Variable classes : dict (class A).
Variable registry : dict (dict string).
Variable depth : nat.
Notation set_option := (set_option classes registry depth).
Notation update := (update classes registry depth).
Notation assign := (assign classes registry depth).
Notation step := (step classes registry depth).
Notation run_stop := (run_stop classes registry depth).
Notation update_keys := (update_keys classes registry depth).
Notation update_key := (update_key classes registry depth).

(** ** Grouping *)

Lemma singles_app : forall (a b : kwargs A), singles (a ++ b) = singles a ++ singles b.
Proof. intros. unfold singles. apply flat_map_app. Qed.
Lemma below_app : forall n (a b : kwargs A), below_name n (a ++ b) = below_name n a ++ below_name n b.
Proof. intros. unfold below_name. apply flat_map_app. Qed.

Lemma dotted_names_In : forall (kw : kwargs A) n, In n (dotted_names kw) <-> exists a args v, In (n :: a :: args, v) kw.
Proof.
  induction kw as [|[k v] kw IH]; intros n; cbn [dotted_names].
  - split; [contradiction | intros (a & args & w & [])].
  - destruct k as [|k0 [|a0 r0]].
    + rewrite IH. split; intros (a & args & w & I); exists a, args, w; [right; exact I|]. destruct I as [E|I]; [discriminate | exact I].
    + rewrite IH. split; intros (a & args & w & I); exists a, args, w; [right; exact I|]. destruct I as [E|I]; [discriminate | exact I].
    + cbn [In]. rewrite filter_In, IH. split.
      * intros [->|[(a & args & w & I) _]]; [exists a0, r0, v; left; reflexivity | exists a, args, w; right; exact I].
      * intros (a & args & w & [E|I]); [injection E as -> _ _ _; left; reflexivity|].
        destruct (String.eqb k0 n) eqn:E; [apply String.eqb_eq in E; left; exact E|].
        right. split; [exists a, args, w; exact I | reflexivity].
Qed.

Lemma filter_NoDup : forall T (f : T -> bool) l, NoDup l -> NoDup (filter f l).
Proof.
  induction l as [|x l IH]; intros N; cbn; [constructor|]. inversion N; subst.
  destruct (f x); [constructor|]; auto. rewrite filter_In. tauto.
Qed.

Lemma dotted_names_NoDup : forall (kw : kwargs A), NoDup (dotted_names kw).
Proof.
  induction kw as [|[k v] kw IH]; cbn [dotted_names]; [constructor|].
  destruct k as [|k0 [|a0 r0]]; auto. constructor; [|apply filter_NoDup; exact IH].
  rewrite filter_In, String.eqb_refl. intros [_ H]. discriminate.
Qed.

Definition mem (n : string) (l : list string) : bool := existsb (String.eqb n) l.
Lemma mem_In : forall n l, mem n l = true <-> In n l.
Proof.
  intros. unfold mem. rewrite existsb_exists. split.
  - intros (x & I & E). apply String.eqb_eq in E. subst. exact I.
  - intros I. exists n. split; [exact I | apply String.eqb_refl].
Qed.

Lemma dotted_names_snoc : forall (kw : kwargs A) k a args v,
  dotted_names (kw ++ [(k :: a :: args, v)]) = if mem k (dotted_names kw) then dotted_names kw else dotted_names kw ++ [k].
Proof.
  intros kw k a args v. induction kw as [|[k' w] kw IH]; cbn [app dotted_names].
  - reflexivity.
  - destruct k' as [|k0 [|a0 r0]]; [exact IH | exact IH|]. rewrite IH.
    cbn [mem existsb]. destruct (String.eqb k k0) eqn:E.
    + apply String.eqb_eq in E. subst k0. cbn [orb]. f_equal.
      destruct (mem k (dotted_names kw)); [reflexivity|]. rewrite filter_app. cbn. rewrite String.eqb_refl. cbn. apply app_nil_r.
    + cbn [orb]. assert (M : mem k (filter (fun n => negb (String.eqb k0 n)) (dotted_names kw)) = mem k (dotted_names kw)).
      { apply eq_true_iff_eq. rewrite !mem_In, filter_In. rewrite String.eqb_sym, E. cbn. tauto. }
      unfold mem in M at 1. rewrite M. destruct (mem k (dotted_names kw)); [reflexivity|].
      rewrite filter_app. cbn. rewrite String.eqb_sym, E. reflexivity.
Qed.

Lemma dotted_names_snoc_single : forall (kw : kwargs A) k v, length k <= 1 -> dotted_names (kw ++ [(k, v)]) = dotted_names kw.
Proof.
  intros kw k v H. induction kw as [|[k' w] kw IH]; cbn [app dotted_names].
  - destruct k as [|? [|]]; cbn in *; try reflexivity. lia.
  - destruct k' as [|k0 [|a0 r0]]; rewrite IH; reflexivity.
Qed.

Lemma below_In : forall n (kw : kwargs A) args v, In (args, v) (below_name n kw) -> In (n :: args, v) kw /\ args <> [].
Proof.
  intros n kw args v I. unfold below_name in I. apply in_flat_map in I. destruct I as ([k w] & I & J).
  cbn in J. destruct k as [|k0 [|a r]]; try contradiction. destruct (String.eqb k0 n) eqn:E; [|contradiction].
  apply String.eqb_eq in E. subst. destruct J as [J|[]]. injection J as <- <-. split; [exact I | discriminate].
Qed.

(** ** The groups collected by the first loop *)

Definition groups (known : string -> bool) (kw : kwargs A) : kwargs A :=
  map (fun n => ([n], VDict (below_name n kw))) (filter known (dotted_names kw)).

Lemma kget_app_skip : forall (a b : kwargs A) k, ~ In k (map fst a) -> kget (a ++ b) k = kget b k.
Proof.
  induction a as [|[k' v'] a IH]; intros b k H; cbn in *; [reflexivity|].
  rewrite key_eqb_neq by (intros ->; tauto). apply IH. tauto.
Qed.
Lemma kset_app_skip : forall (a b : kwargs A) k v, ~ In k (map fst a) -> kset (a ++ b) k v = a ++ kset b k v.
Proof.
  induction a as [|[k' v'] a IH]; intros b k v H; cbn in *; [reflexivity|].
  rewrite key_eqb_neq by (intros ->; tauto). f_equal. apply IH. tauto.
Qed.

Lemma kget_map : forall (f : string -> val A) ns m, kget (map (fun n => ([n], f n)) ns) [m] = if mem m ns then Some (f m) else None.
Proof.
  induction ns as [|n ns IH]; intros m; cbn; [reflexivity|]. rewrite IH. unfold mem. cbn [existsb].
  destruct (String.eqb m n) eqn:E; cbn; [apply String.eqb_eq in E; subst; reflexivity | reflexivity].
Qed.

Lemma kset_map : forall (f : string -> val A) ns m w, NoDup ns -> In m ns ->
  kset (map (fun n => ([n], f n)) ns) [m] w = map (fun n => ([n], if String.eqb n m then w else f n)) ns.
Proof.
  induction ns as [|n ns IH]; intros m w N I; cbn; [contradiction|]. inversion N; subst.
  destruct (String.eqb m n) eqn:E; cbn.
  - apply String.eqb_eq in E. subst. rewrite String.eqb_refl. f_equal. apply map_ext_in. intros x J.
    destruct (String.eqb x n) eqn:E; [apply String.eqb_eq in E; subst; contradiction | reflexivity].
  - rewrite String.eqb_sym, E. f_equal. apply IH; [assumption|].
    destruct I as [->|I]; [rewrite String.eqb_refl in E; discriminate | exact I].
Qed.

Lemma filter_ext_in' : forall T (f g : T -> bool) l, (forall x, In x l -> f x = g x) -> filter f l = filter g l.
Proof. intros. apply filter_ext_in. assumption. Qed.

(** The first loop from a position in the middle. *)
Lemma first_loop : forall rest done c n,
  proper_keys (done ++ rest) -> keyword_first (done ++ rest) ->
  (let '(c', n', e) := run_stop c n (assignments (stored c) rest) in
   exists kw', update_keys update c (rest ++ groups (stored c) done) (map fst rest) n = (c', kw', n', e) /\
     (e = None -> kw' = groups (stored c') (done ++ rest))).
Proof.
  induction rest as [|[key v] rest IH]; intros done c n P K.
  - cbn. rewrite app_nil_r. eexists. split; [reflexivity | intros _; reflexivity].
  - assert (P1 : proper_keys ((done ++ [(key, v)]) ++ rest)) by (rewrite <- app_assoc; exact P).
    assert (K1 : keyword_first ((done ++ [(key, v)]) ++ rest)) by (rewrite <- app_assoc; exact K).
    cbn [map fst M_Config.update_keys].
    assert (Hhead : kget (((key, v) :: rest) ++ groups (stored c) done) key = Some v) by (cbn; rewrite key_eqb_refl; reflexivity).
    assert (Hdel : kdel (((key, v) :: rest) ++ groups (stored c) done) key = rest ++ groups (stored c) done) by (cbn; rewrite key_eqb_refl; reflexivity).
    destruct key as [|name args].
    { exfalso. destruct P as [_ P]. apply P. rewrite map_app. apply in_or_app. right. left. reflexivity. }
    unfold M_Config.update_key. rewrite Hhead, Hdel.
    destruct args as [|a args].
    + (* a plain keyword *)
      unfold assignments. cbn [singles flat_map fst snd app filter map].
      change (flat_map (fun pv : list string * val A => match fst pv with [n0] => [(n0, snd pv)] | _ => [] end) rest) with (singles rest).
      assert (ND : forall m, In m (dotted_names done) -> m <> name).
      { intros m I ->. apply dotted_names_In in I. destruct I as (a & args & w & I). apply in_split in I. destruct I as (l1 & l2 & ->).
        rewrite <- app_assoc in K. cbn in K. apply (K l1 (l2 ++ ([name], v) :: rest) name (a :: args) w eq_refl); [discriminate|].
        rewrite map_app. apply in_or_app. right. left. reflexivity. }
      assert (NR : ~ In [name] (map fst rest)).
      { destruct P as [P _]. rewrite map_app in P. apply NoDup_remove_2 in P. intros I. apply P. apply in_or_app. right. exact I. }
      destruct (stored c name) eqn:S.
      * cbn [filter map fst snd M_Config.run_stop M_Config.step at_path]. unfold M_Config.assign.
        pose proof (set_option_differs classes registry depth update c name v n) as D.
        destruct (set_option update c name v n) as [[c1 n1] [e|]]; [eexists; split; [reflexivity | discriminate]|].
        cbn [fst] in D. destruct D as (_ & _ & _ & D).
        assert (G1 : groups (stored c) done = groups (stored c1) (done ++ [([name], v)])).
        { unfold groups. rewrite dotted_names_snoc_single by (cbn; lia).
          rewrite (filter_ext_in' _ (stored c) (stored c1)).
          - apply map_ext. intros m. rewrite below_app. cbn. rewrite app_nil_r. reflexivity.
          - intros m I. unfold stored. rewrite D by (apply ND; exact I). reflexivity. }
        assert (G2 : filter (fun nv : string * val A => stored c (fst nv)) (singles rest) = filter (fun nv => stored c1 (fst nv)) (singles rest)).
        { apply filter_ext_in'. intros [m w] I. cbn. unfold stored. rewrite D; [reflexivity|]. intros ->. apply NR.
          unfold singles in I. apply in_flat_map in I. destruct I as ([k0 w0] & I & J). cbn in J.
          destruct k0 as [|k1 [|]]; try contradiction. destruct J as [J|[]]. injection J as -> _.
          apply in_map_iff. exists ([name], w0). auto. }
        rewrite G1, G2. specialize (IH (done ++ [([name], v)]) c1 n1 P1 K1). unfold assignments in IH.
        destruct (run_stop c1 n1 (map (fun nv : string * val A => OAssign [] (fst nv) (snd nv)) (filter (fun nv : string * val A => stored c1 (fst nv)) (singles rest)))) as [[c2 n2] e2].
        destruct IH as (kw' & E & F). exists kw'. split; [exact E|]. rewrite <- app_assoc in F. exact F.
      * assert (G1 : groups (stored c) done = groups (stored c) (done ++ [([name], v)])).
        { unfold groups. rewrite dotted_names_snoc_single by (cbn; lia). apply map_ext. intros m. rewrite below_app. cbn. rewrite app_nil_r. reflexivity. }
        rewrite G1. specialize (IH (done ++ [([name], v)]) c n P1 K1). unfold assignments in IH. cbn [fst].
        destruct (run_stop c n (map (fun nv : string * val A => OAssign [] (fst nv) (snd nv)) (filter (fun nv : string * val A => stored c (fst nv)) (singles rest)))) as [[c2 n2] e2].
        destruct IH as (kw' & E & F). exists kw'. split; [exact E|]. rewrite <- app_assoc in F. exact F.
    + (* a dotted key *)
      assert (AS : assignments (stored c) ((name :: a :: args, v) :: rest) = assignments (stored c) rest) by reflexivity.
      rewrite AS.
      assert (NR : ~ In [name] (map fst rest)) by (apply (K done rest name (a :: args) v eq_refl); discriminate).
      assert (NR' : ~ In [name] (map fst ((name :: a :: args, v) :: rest))) by (cbn; intros [X|X]; [discriminate | apply NR; exact X]).
      destruct (stored c name) eqn:S.
      * rewrite kget_app_skip by exact NR'. unfold groups at 1. rewrite kget_map.
        assert (MM : mem name (filter (stored c) (dotted_names done)) = mem name (dotted_names done)).
        { apply eq_true_iff_eq. rewrite !mem_In, filter_In. tauto. }
        rewrite MM.
        assert (G1 : kset (rest ++ groups (stored c) done) [name]
            (VDict ((if mem name (dotted_names done) then below_name name done else []) ++ [(a :: args, v)]))
          = rest ++ groups (stored c) (done ++ [(name :: a :: args, v)])).
        { rewrite kset_app_skip by exact NR. f_equal. unfold groups. rewrite dotted_names_snoc.
          assert (B : forall m, m <> name -> below_name m (done ++ [(name :: a :: args, v)]) = below_name m done).
          { intros m Hm. rewrite below_app. cbn. replace (String.eqb name m) with false; [apply app_nil_r|].
            symmetry. apply String.eqb_neq. congruence. }
          assert (B' : below_name name (done ++ [(name :: a :: args, v)]) = below_name name done ++ [(a :: args, v)]).
          { rewrite below_app. cbn. rewrite String.eqb_refl. reflexivity. }
          destruct (mem name (dotted_names done)) eqn:M.
          - rewrite kset_map.
            + apply map_ext. intros m. destruct (String.eqb m name) eqn:E.
              * apply String.eqb_eq in E. subst m. rewrite B'. reflexivity.
              * rewrite B; [reflexivity|]. apply String.eqb_neq. exact E.
            + apply filter_NoDup, dotted_names_NoDup.
            + apply mem_In. rewrite MM. reflexivity.
          - rewrite kset_absent.
            + rewrite filter_app, map_app. cbn [filter]. rewrite S. cbn [map]. f_equal.
              * apply map_ext_in. intros m I. rewrite B; [reflexivity|]. intros ->.
                apply filter_In in I. destruct I as [I _]. apply mem_In in I. congruence.
              * rewrite B'. replace (below_name name done) with (@nil (list string * val A)); [reflexivity|].
                destruct (below_name name done) as [|[x y] l] eqn:E; [reflexivity|]. exfalso.
                assert (I : In (x, y) (below_name name done)) by (rewrite E; left; reflexivity).
                apply below_In in I. destruct I as [I Nx]. destruct x as [|x0 x1]; [contradiction|].
                assert (In name (dotted_names done)) by (apply dotted_names_In; exists x0, x1, y; exact I).
                apply mem_In in H. congruence.
            + rewrite map_map. cbn. intros I. apply in_map_iff in I. destruct I as (m & E & I). injection E as ->.
              apply filter_In in I. destruct I as [I _]. apply mem_In in I. congruence. }
        assert (NE : ~ In (a :: args) (map fst (below_name name done))).
        { intros I. apply in_map_iff in I. destruct I as ([x y] & E & I). cbn in E. subst x. apply below_In in I. destruct I as [I _].
          destruct P as [P _]. rewrite map_app in P. apply NoDup_remove_2 in P. apply P. apply in_or_app. left.
          apply in_map_iff. exists (name :: a :: args, y). auto. }
        specialize (IH (done ++ [(name :: a :: args, v)]) c n P1 K1).
        destruct (run_stop c n (assignments (stored c) rest)) as [[c2 n2] e2].
        destruct IH as (kw' & E & F). exists kw'. rewrite <- app_assoc in F. split; [|exact F]. rewrite <- E, <- G1.
        destruct (mem name (dotted_names done)).
        -- cbn [set_item]. rewrite (kset_absent (below_name name done)) by exact NE. reflexivity.
        -- reflexivity.
      * assert (G1 : groups (stored c) done = groups (stored c) (done ++ [(name :: a :: args, v)])).
        { unfold groups. rewrite dotted_names_snoc. destruct (mem name (dotted_names done)) eqn:M.
          - apply map_ext_in. intros m I. rewrite below_app. cbn. apply filter_In in I. destruct I as [_ I].
            replace (String.eqb name m) with false; [rewrite app_nil_r; reflexivity|]. symmetry. apply String.eqb_neq. congruence.
          - rewrite filter_app. cbn [filter]. rewrite S, app_nil_r. apply map_ext_in. intros m I. rewrite below_app. cbn.
            apply filter_In in I. destruct I as [_ I].
            replace (String.eqb name m) with false; [rewrite app_nil_r; reflexivity|]. symmetry. apply String.eqb_neq. congruence. }
        rewrite G1. specialize (IH (done ++ [(name :: a :: args, v)]) c n P1 K1).
        destruct (run_stop c n (assignments (stored c) rest)) as [[c2 n2] e2].
        destruct IH as (kw' & E & F). exists kw'. split; [exact E|]. rewrite <- app_assoc in F. exact F.
Qed.

(** The second loop is a sequence of updates of sub-configurations. *)

Implicit Type c : cfg A.
Lemma no_plain_get : forall (c : cfg A) n v, no_plain c n -> dget (cfg_data c) n <> Some (SPlain v).
Proof. intros c n v N E. apply (N v). apply dget_Some_In. exact E. Qed.

Lemma no_plain_dset : forall c n m s, no_plain c n -> (m = n -> forall v, s <> SPlain v) -> no_plain (with_data c (dset (cfg_data c) m s)) n.
Proof.
  intros c n m s N H v I. rewrite with_data_data in I. apply In_dset in I. destruct I as [E|I]; [|exact (N v I)].
  injection E as -> <-. exact (H eq_refl v eq_refl).
Qed.

Lemma update_item_step : forall c n d x, no_plain c n -> stored c n = true ->
  update_item update c [n] (VDict d) x = step c x (OUpdate [n] d).
Proof.
  intros c n d x N S. unfold update_item, M_Config.step. cbn [at_path]. unfold stored in *.
  destruct (dget (cfg_data c) n) as [[v|i v|s]|] eqn:E; [exfalso; eapply no_plain_get; eassumption | reflexivity | | discriminate].
  unfold update_sub. rewrite E. reflexivity.
Qed.

Lemma step_update_differs : forall c n d x, differs_only_at c (fst (fst (step c x (OUpdate [n] d)))) n.
Proof.
  intros. cbn [M_Config.step at_path]. destruct (dget (cfg_data c) n) as [[v|i v|s]|]; try apply differs_refl.
  destruct (update s d x) as [[s' x'] e]. apply differs_dset.
Qed.

Lemma no_plain_step_update : forall c m d x n, no_plain c n -> no_plain (fst (fst (step c x (OUpdate [m] d)))) n.
Proof.
  intros c m d x n N. cbn [M_Config.step at_path]. destruct (dget (cfg_data c) m) as [[v|i v|s]|]; try exact N.
  destruct (update s d x) as [[s' x'] e]. apply no_plain_dset; [exact N | discriminate].
Qed.

Lemma second_loop : forall ns kw c x, NoDup ns -> (forall n, In n ns -> no_plain c n /\ stored c n = true) ->
  update_items update c (map (fun n => ([n], VDict (below_name n kw))) ns) x
  = run_stop c x (map (fun n => OUpdate [n] (below_name n kw)) ns).
Proof.
  induction ns as [|n ns IH]; intros kw c x N H; cbn [map update_items M_Config.run_stop]; [reflexivity|].
  rewrite update_item_step by (apply H; left; reflexivity).
  pose proof (step_update_differs c n (below_name n kw) x) as (_ & _ & _ & D).
  pose proof (fun m => no_plain_step_update c n (below_name n kw) x m) as NP.
  destruct (step c x (OUpdate [n] (below_name n kw))) as [[c1 x1] [e|]]; [reflexivity|]. cbn in D, NP.
  inversion N; subst. apply IH; [assumption|]. intros m I.
  assert (m <> n) by (intros ->; contradiction). split; [apply NP, H; right; exact I|].
  unfold stored in *. rewrite D by assumption. apply (H m). right. exact I.
Qed.

(** Options under which something is nested are not plain values. *)
Notation nests_below_subs := (nests_below_subs classes).

Lemma no_plain_set : forall u c n m v x, no_plain c n -> (forall d fs, find_kind classes (cfg_class c) n <> Some (KPlain d fs)) ->
  no_plain (fst (fst (set_option u c m v x))) n.
Proof.
  intros u c n m v x N K.
  assert (Hf : forall cls, no_plain (fst (fst (@store_fresh A classes depth c m cls x))) n).
  { intros cls. unfold store_fresh. destruct (instantiate classes depth cls (cfg_root c) (cfg_mesh c) x) as [[s n2]|e]; [|exact N].
    apply no_plain_dset; [exact N | discriminate]. }
  assert (Hi : forall t, no_plain (fst (fst (store_instance c m t x))) n).
  { intros t. apply no_plain_dset; [exact N | discriminate]. }
  assert (Hd : forall d, no_plain (fst (fst (update_sub u c m d x))) n).
  { intros d. unfold update_sub. destruct (dget (cfg_data c) m) as [[| |s]|]; try exact N.
    destruct (u s d x) as [[s' n'] e]. apply no_plain_dset; [exact N | discriminate]. }
  unfold M_Config.set_option.
  destruct (find_kind classes (cfg_class c) m) as [[d fs|d fs|cls|iface cls|cls d]|] eqn:Km; [| | | | |exact N].
  - destruct (fs v); [|exact N]. apply no_plain_dset; [exact N|]. intros ->. exfalso. exact (K d fs Km).
  - destruct (fs v); [|exact N]. destruct (dget (cfg_data c) m) as [[]|] eqn:E; try exact N.
    apply no_plain_dset; [exact N | discriminate].
  - destruct v; try exact N; [destruct (String.eqb s (class_name classes cls)) | | destruct (is_instance classes c0 cls)]; auto.
  - destruct v; try exact N; [ | | destruct (is_instance classes c0 iface)]; auto.
    destruct (dget registry iface) as [tree|]; [|exact N]. destruct (dget tree s) as [k|]; [|exact N].
    destruct (dget (cfg_data c) m) as [[| |cur]|]; try exact N. destruct (is_instance classes cur k); auto.
  - destruct v as [y|b|s|y|y]; try exact N.
    + destruct b; [apply Hf|]. intros w I. cbn in I. rewrite with_data_data in I. apply In_ddel in I. exact (N w I).
    + destruct (String.eqb s m); [apply Hf | exact N].
Qed.

Lemma no_plain_assigns : forall l c x n, no_plain c n -> (forall d fs, find_kind classes (cfg_class c) n <> Some (KPlain d fs)) ->
  no_plain (fst (fst (run_stop c x (map (fun nv : string * val A => OAssign [] (fst nv) (snd nv)) l)))) n.
Proof.
  induction l as [|[m v] l IH]; intros c x n N K; [exact N|]. cbn [map fst snd M_Config.run_stop M_Config.step at_path]. unfold M_Config.assign.
  pose proof (no_plain_set update c n m v x N K) as N1.
  pose proof (set_option_differs classes registry depth update c m v x) as (C1 & _).
  destruct (set_option update c m v x) as [[c1 x1] [e|]]; [exact N1|]. cbn in *. apply IH; [exact N1|].
  rewrite C1. exact K.
Qed.

(** [update] is the script its keywords stand for. *)
Theorem update_script : forall c kw n, proper_keys kw -> keyword_first kw -> nests_below_subs c kw ->
  update c kw n =
  match run_stop c n (assignments (stored c) kw) with
  | (c1, n1, None) => run_stop c1 n1 (nested_updates (stored c1) kw)
  | r => r
  end.
Proof.
  intros c kw n P K S. rewrite update_eq.
  pose proof (first_loop kw [] c n P K) as F. cbn [groups dotted_names filter map] in F.
  unfold groups in F at 1. cbn [dotted_names filter map] in F. rewrite app_nil_r in F.
  assert (NP : forall m, In m (dotted_names kw) -> no_plain (fst (fst (run_stop c n (assignments (stored c) kw)))) m).
  { intros m I. apply dotted_names_In in I. destruct I as (a & args & v & I). destruct (S m a args v I). apply no_plain_assigns; assumption. }
  destruct (run_stop c n (assignments (stored c) kw)) as [[c1 n1] e]. destruct F as (kw' & E & F). rewrite E.
  destruct e as [e|]; [reflexivity|]. rewrite (F eq_refl). cbn [app] in *. unfold groups, nested_updates.
  apply second_loop.
  - apply filter_NoDup, dotted_names_NoDup.
  - intros m I. apply filter_In in I. destruct I as [I J]. split; [apply NP; exact I | exact J].
Qed.
End L.
