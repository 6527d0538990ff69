(** Configurations stay within their class table under any history (C25). *)
From Coq Require Import String List Bool Arith Lia.
From Verif Require Import Base Dict M_Config S_Config L_Stream L_ConfigTree L_Config L_Nested L_RoundTrip.
Import ListNotations.
Local Open Scope string_scope.
Local Open Scope list_scope.

Section L.
Context {A : Type}.
Variable classes : dict (class A).
Variable registry : dict (dict string).
Variable depth : nat.
Hypothesis table : good_table classes registry.
Variable S : string -> Prop.
Hypothesis closed : closed_classes classes registry S.
Notation set_option := (set_option classes registry depth).
Notation set_item := (set_item classes registry depth).
Notation update := (update classes registry depth).
Notation update_fuel := (update_fuel classes registry depth).
Notation update_keys := (update_keys classes registry depth).
Notation update_key := (update_key classes registry depth).
Notation step := (step classes registry depth).
Notation run := (run classes registry depth).
Notation instantiate := (@instantiate A classes).
Notation conforms := (@conforms A classes registry).
Notation slot_conforms := (@slot_conforms A classes registry).
Notation good_value := (@good_value A classes registry S).
Notation good_statement := (@good_statement A classes registry S).

(** Every class in the tree is in the set. *)
Definition inside (c : cfg A) : Prop := forall s, reaches c s -> S (cfg_class s).
Definition fine (c : cfg A) : Prop := conforms c /\ S (cfg_class c).

Lemma dget_opt_In : forall C n (k : kind A), dget (k_opts C) n = Some k -> In (n, k) (k_opts C).
Proof. intros. apply dget_Some_In. assumption. Qed.

(** Relabelling does not matter. *)
Lemma relabel_class : forall r m (c : cfg A), cfg_class (relabel r m c) = cfg_class c.
Proof. destruct c; reflexivity. Qed.

Lemma relabel_conforms : forall r m c, conforms c -> conforms (relabel r m c).
Proof.
  intros r m c. remember (csize c) as N. revert c HeqN. induction N as [N IH] using lt_wf_ind.
  intros [cls r0 m0 data] -> H. inversion H as [cls' r' m' data' C HC HK HS]; subst. cbn [relabel].
  eapply conforms_cfg; [exact HC| |].
  - rewrite <- HK, map_map. apply map_ext. intros [k []]; reflexivity.
  - intros k sl I. apply in_map_iff in I. destruct I as ([k' sl'] & E & I). destruct (HS k' sl' I) as (kd & Hkd & J).
    destruct sl' as [v|i v|s]; injection E as <- <-; exists kd; split; try assumption.
    assert (R : conforms (relabel r m s)).
    { eapply IH; [eapply csize_sub; exact I | reflexivity|]. inversion J; subst; assumption. }
    inversion J; subst.
    + constructor; [apply relabel_class | exact R].
    + econstructor; try (rewrite relabel_class; eassumption); eassumption.
Qed.

(** Fresh instances conform. *)
Lemma instantiate_conforms : forall f cls r m n c n', S cls -> instantiate f cls r m n = Ok (c, n') -> conforms c.
Proof.
  induction f as [|f IH]; intros cls r m n c n' Hcls E; cbn [M_Config.instantiate] in E; [discriminate|].
  destruct (dget classes cls) as [C|] eqn:HC; [|discriminate].
  pose proof (gt_distinct _ _ table _ _ HC) as ND.
  assert (G : forall opts done acc res, k_opts C = done ++ opts ->
    (forall d n, acc = Ok (d, n) -> map fst d = map fst done /\ forall k sl, In (k, sl) d -> exists kd, dget (k_opts C) k = Some kd /\ slot_conforms kd sl) ->
    fold_left (reset_option (fun c n => instantiate f c r m n)) opts acc = Ok res ->
    map fst (fst res) = map fst (k_opts C) /\ forall k sl, In (k, sl) (fst res) -> exists kd, dget (k_opts C) k = Some kd /\ slot_conforms kd sl).
  { induction opts as [|[name kd] opts IHo]; intros done acc res Eo H F; cbn [fold_left] in F.
    - rewrite app_nil_r in Eo. subst acc. destruct res as [d0 n0]. rewrite Eo. destruct (H _ _ eq_refl) as [H1 H2]. rewrite Eo in H2. auto.
    - eapply (IHo (done ++ [(name, kd)])); [rewrite <- app_assoc; exact Eo| |exact F]. clear F IHo res.
      intros d0 n0 E0. destruct acc as [[d1 n1]|e]; [|discriminate]. destruct (H _ _ eq_refl) as [HK HS]. clear H.
      assert (In1 : In (name, kd) (k_opts C)) by (rewrite Eo; apply in_or_app; right; left; reflexivity).
      assert (Hkd : dget (k_opts C) name = Some kd) by (apply NoDup_In_dget; assumption).
      assert (Abs : ~ In name (dkeys d1)).
      { unfold dkeys. rewrite HK. rewrite Eo, map_app in ND. apply NoDup_remove_2 in ND. intros I. apply ND. apply in_or_app. auto. }
      assert (X : forall sl, d0 = dset d1 name sl -> slot_conforms kd sl ->
        map fst d0 = map fst (done ++ [(name, kd)]) /\ forall k s, In (k, s) d0 -> exists kd, dget (k_opts C) k = Some kd /\ slot_conforms kd s).
      { intros sl -> J. rewrite dkeys_dset_absent by exact Abs. rewrite !map_app, HK. split; [reflexivity|].
        intros k s I. apply in_app_or in I. destruct I as [I|[I|[]]]; [apply HS; exact I|]. injection I as <- <-. exists kd. auto. }
      destruct kd as [d fs|d fs|cl|ifc cl|cl b]; cbn in E0.
      + destruct (fs d) as [w|] eqn:Ef; cbn in E0; [|discriminate]. injection E0 as <- _. eapply X; [reflexivity|]. constructor.
        eapply gt_idempotent; eauto.
      + destruct (fs d) as [w|] eqn:Ef; cbn in E0; [|discriminate]. injection E0 as <- _. eapply X; [reflexivity|]. constructor.
        eapply gt_idempotent; eauto.
      + destruct (instantiate f cl r m n1) as [[s n2]|] eqn:Ei; cbn in E0; [|discriminate]. injection E0 as <- _.
        eapply X; [reflexivity|]. constructor; [eapply instantiate_labelled; exact Ei|]. eapply IH; [|exact Ei]. eapply cc_unique; eassumption.
      + destruct (instantiate f cl r m n1) as [[s n2]|] eqn:Ei; cbn in E0; [|discriminate]. injection E0 as <- _.
        eapply X; [reflexivity|]. destruct (cc_interface _ _ _ closed _ _ _ _ _ Hcls HC In1) as (tree & Ht & Hall & Cd & Hd1 & Hd2).
        assert (Ks : cfg_class s = cl) by (eapply instantiate_labelled; exact Ei).
        econstructor; try (rewrite Ks; eassumption); try eassumption. eapply IH; [|exact Ei]. eapply Hall. exact Hd2.
      + exfalso. eapply cc_no_switch; eassumption. }
  destruct (fold_left (reset_option (fun c n => instantiate f c r m n)) (k_opts C) (Ok ([], n))) as [res|] eqn:F; cbn in E; [|discriminate].
  injection E as <- <-. assert (G0 : map fst (fst res) = map fst (k_opts C) /\ forall k sl, In (k, sl) (fst res) -> exists kd, dget (k_opts C) k = Some kd /\ slot_conforms kd sl).
  { apply (G (k_opts C) [] (Ok ([], n)) res eq_refl); [|exact F].
    intros d0 n0 E0. injection E0 as <- <-. split; [reflexivity | intros ? ? []]. }
  destruct G0 as [G1 G2].
  eapply conforms_cfg; eassumption.
Qed.

(** What an [update] of sub-configurations must guarantee. *)
Definition keeps (u : cfg A -> kwargs A -> nat -> out A) : Prop :=
  forall c d n, fine c -> good_value (VDict d) -> fine (fst (fst (u c d n))) /\ cfg_class (fst (fst (u c d n))) = cfg_class c.

Lemma fine_dset : forall c C k kd sl, fine c -> dget classes (cfg_class c) = Some C ->
  dget (k_opts C) k = Some kd -> slot_conforms kd sl -> fine (with_data c (dset (cfg_data c) k sl)).
Proof.
  intros c C k kd sl [H HS] HC Hk Hs. split; [eapply conforms_dset; eassumption | rewrite with_data_class; exact HS].
Qed.

Lemma fine_class_kept : forall c name (c' : cfg A), differs_only_at c c' name -> cfg_class c' = cfg_class c.
Proof. intros c name c' (H & _). exact H. Qed.

Lemma fine_update_sub : forall u c name d n, keeps u -> fine c -> good_value (VDict d) -> fine (fst (fst (update_sub u c name d n))).
Proof.
  intros u c name d n U Fc Gd. unfold update_sub. destruct (dget (cfg_data c) name) as [[| |s]|] eqn:E; try exact Fc.
  destruct (conforms_data classes registry table c (proj1 Fc)) as (C & HC & HK & ND & HS). destruct (HS _ _ E) as (kd & Hkd & J).
  assert (Fs : fine s).
  { split; [inversion J; subst; assumption|]. inversion J; subst.
    - eapply cc_unique; [exact closed | exact (proj2 Fc) | exact HC | apply dget_Some_In; exact Hkd].
    - destruct (cc_interface _ _ _ closed _ _ _ _ _ (proj2 Fc) HC (dget_Some_In _ _ _ Hkd)) as (tr & Ht & Hall & _).
      match goal with H : dget registry iface = Some tree |- _ => rewrite Ht in H; injection H as -> end.
      eapply Hall. eassumption. }
  destruct (U s d n Fs Gd) as [F1 K1]. destruct (u s d n) as [[s' n'] e]. cbn [fst snd] in *.
  eapply fine_dset; try eassumption. destruct F1 as [F1 _].
  inversion J; subst; [constructor; assumption|]. econstructor; try (rewrite K1; eassumption); eassumption.
Qed.

Lemma fine_store_fresh : forall c C name kd cls n, fine c -> dget classes (cfg_class c) = Some C -> dget (k_opts C) name = Some kd ->
  S cls -> (forall s, cfg_class s = cls -> conforms s -> slot_conforms kd (SSub s)) -> fine (fst (fst (store_fresh classes depth c name cls n))).
Proof.
  intros c C name kd cls n Fc HC Hk Hcls H. unfold store_fresh.
  destruct (instantiate depth cls (cfg_root c) (cfg_mesh c) n) as [[s n2]|x] eqn:E; [|exact Fc].
  eapply fine_dset; try eassumption. apply H; [eapply instantiate_labelled; exact E | eapply instantiate_conforms; eassumption].
Qed.

Lemma fine_set_option : forall u c name v n, keeps u -> fine c -> good_value v ->
  fine (fst (fst (set_option u c name v n))) /\ cfg_class (fst (fst (set_option u c name v n))) = cfg_class c.
Proof.
  intros u c name v n U Fc Gv. split; [|eapply fine_class_kept; apply set_option_differs].
  destruct (conforms_data classes registry table c (proj1 Fc)) as (C & HC & HK & ND & HS).
  unfold M_Config.set_option, find_kind. rewrite HC.
  destruct (dget (k_opts C) name) as [kd|] eqn:Hk; [|exact Fc]. pose proof (dget_Some_In _ _ _ Hk) as Ik.
  destruct kd as [d fs|d fs|cls|iface cls|cls d].
  - destruct (fs v) as [w|] eqn:Ef; [|exact Fc]. eapply fine_dset; try eassumption. constructor. eapply gt_idempotent; eauto.
  - destruct (fs v) as [w|] eqn:Ef; [|exact Fc]. destruct (dget (cfg_data c) name) as [[]|] eqn:E; try exact Fc.
    eapply fine_dset; try eassumption. constructor. eapply gt_idempotent; eauto.
  - assert (Su : S cls) by (eapply cc_unique; [exact closed | exact (proj2 Fc) | exact HC | exact Ik]).
    destruct v; try exact Fc.
    + destruct (String.eqb s (class_name classes cls)); [|exact Fc].
      eapply fine_store_fresh; try eassumption. intros; constructor; assumption.
    + apply fine_update_sub; assumption.
    + destruct (is_instance classes c0 cls) eqn:Ei; [|exact Fc]. eapply fine_dset; try eassumption.
      inversion Gv; subst. constructor; [|apply relabel_conforms; assumption]. rewrite relabel_class.
      unfold is_instance in Ei. match goal with H : dget classes (cfg_class c0) = Some ?X |- _ => rewrite H in Ei end.
      apply existsb_exists in Ei. destruct Ei as (b & Ib & Eb). apply String.eqb_eq in Eb. subst b.
      eapply cc_final; [exact closed | exact (proj2 Fc) | exact HC | exact Ik | eassumption | exact Ib].
  - destruct (cc_interface _ _ _ closed _ _ _ _ _ (proj2 Fc) HC Ik) as (tree & Ht & Hall & Cd & Hd1 & Hd2).
    destruct v; try exact Fc.
    + rewrite Ht. destruct (dget tree s) as [k|] eqn:Ek; [|exact Fc]. destruct (Hall _ _ Ek) as (Sk & Ck & HCk & Hnk).
      destruct (dget (cfg_data c) name) as [[| |cur]|]; try exact Fc.
      destruct (is_instance classes cur k); [exact Fc|]. eapply fine_store_fresh; try eassumption.
      intros s0 E0 C0. subst k. econstructor; eassumption.
    + apply fine_update_sub; assumption.
    + destruct (is_instance classes c0 iface) eqn:Ei; [|exact Fc]. eapply fine_dset; try eassumption.
      inversion Gv; subst. 
      unfold is_instance in Ei. match goal with H : dget classes (cfg_class c0) = Some ?X |- _ => rewrite H in Ei end.
      apply existsb_exists in Ei. destruct Ei as (b & Ib & Eb). apply String.eqb_eq in Eb. subst b.
      econstructor; [apply relabel_conforms; assumption | rewrite relabel_class; eassumption | exact Ht|].
      rewrite relabel_class. eauto.
  - exfalso. eapply cc_no_switch; [exact closed | exact (proj2 Fc) | exact HC | exact Ik].
Qed.

Definition good_kw (kw : kwargs A) : Prop := forall k v, In (k, v) kw -> good_value v.

Lemma good_kset : forall kw k v, good_kw kw -> good_value v -> good_kw (kset kw k v).
Proof.
  intros kw k v G Gv k' v' I. apply In_kset in I. destruct I as [E|I]; [injection E as -> ->; exact Gv | eapply G; exact I].
Qed.
Lemma good_kdel : forall kw k, good_kw kw -> good_kw (kdel kw k).
Proof. intros kw k G k' v' I. eapply G. eapply In_kdel. exact I. Qed.

Lemma good_set_item : forall u t args v n t' n', keeps u -> good_value t -> good_value v -> set_item u t args v n = (Ok t', n') -> good_value t'.
Proof.
  intros u t args v n t' n' U Gt Gv E. unfold M_Config.set_item in E. destruct t as [| | |d|c]; try discriminate.
  - injection E as <- _. constructor. inversion Gt; subst. intros k w I. eapply (good_kset d args v); eassumption.
  - destruct args as [|a [|]]; try (injection E as <- _; exact Gt).
    inversion Gt as [| | | |t0 C0 H1 H2 H3 H4]; subst. destruct (fine_set_option u c a v n U (conj H1 H2) Gv) as [[F1 F2] K].
    destruct (set_option u c a v n) as [[c2 n2] [e|]]; [discriminate|]. injection E as <- _. cbn in F1, F2, K.
    econstructor; [exact F1 | exact F2 | rewrite K; exact H3|]. rewrite K. exact H4.
Qed.

Lemma fine_update_key : forall u c kw key n, keeps u -> fine c -> good_kw kw ->
  fine (fst (fst (fst (update_key u c kw key n)))) /\ cfg_class (fst (fst (fst (update_key u c kw key n)))) = cfg_class c /\
  good_kw (snd (fst (fst (update_key u c kw key n)))).
Proof.
  intros u c kw key n U Fc G. unfold M_Config.update_key.
  destruct (kget kw key) as [v|] eqn:Ev; [|auto]. destruct key as [|name args]; [auto|].
  assert (Gv : good_value v) by (eapply G; apply kget_In; exact Ev).
  pose proof (good_kdel kw (name :: args) G) as Gd.
  destruct (stored c name); [|auto]. destruct args as [|a args].
  - destruct (fine_set_option u c name v n U Fc Gv) as [F1 K1]. destruct (set_option u c name v n) as [[c2 n2] e]. auto.
  - destruct (kget kw [name]) as [t|] eqn:Et.
    + assert (Gt : good_value t) by (eapply G; apply kget_In; exact Et).
      destruct (set_item u t (a :: args) v n) as [[t'|e] n2] eqn:Ei; [|auto]. split; [exact Fc|]. split; [reflexivity|].
      apply good_kset; [exact Gd|]. exact (good_set_item u t (a :: args) v n t' n2 U Gt Gv Ei).
    + split; [exact Fc|]. split; [reflexivity|]. apply good_kset; [exact Gd|]. constructor. intros k w [E|[]]. injection E as <- <-. exact Gv.
Qed.

Lemma keeps_update_fuel : forall f, keeps (update_fuel f).
Proof.
  induction f as [|f IH]; intros c d n Fc Gd; [auto|]. cbn [M_Config.update_fuel].
  assert (Gk : good_kw d) by (inversion Gd; subst; assumption). clear Gd.
  assert (K : forall keys c kw n, fine c -> good_kw kw ->
    let r := update_keys (update_fuel f) c kw keys n in
    fine (fst (fst (fst r))) /\ cfg_class (fst (fst (fst r))) = cfg_class c /\ good_kw (snd (fst (fst r)))).
  { induction keys as [|key keys IHk]; intros c0 kw0 n0 F0 G0; cbn; [auto|].
    destruct (fine_update_key (update_fuel f) c0 kw0 key n0 IH F0 G0) as (F1 & K1 & G1).
    destruct (update_key (update_fuel f) c0 kw0 key n0) as [[[c1 kw1] n1] [e|]]; cbn in *; [auto|].
    destruct (IHk c1 kw1 n1 F1 G1) as (F2 & K2 & G2). split; [exact F2|]. split; [congruence | exact G2]. }
  specialize (K (map fst d) c d n Fc Gk). cbn in K.
  destruct (update_keys (update_fuel f) c d (map fst d) n) as [[[c1 kw1] n1] [e|]]; cbn in K; destruct K as (F1 & K1 & G1); [auto|].
  rewrite <- K1. clear K1 Fc Gk c d n. revert c1 n1 F1.
  induction kw1 as [|[key v] kw1 IHk]; intros c1 n1 F1; cbn; [auto|].
  assert (X : fine (fst (fst (update_item (update_fuel f) c1 key v n1))) /\ cfg_class (fst (fst (update_item (update_fuel f) c1 key v n1))) = cfg_class c1).
  { unfold update_item. destruct key as [|name [|]]; auto.
    destruct (dget (cfg_data c1) name) as [[w|i w|s]|] eqn:E; auto.
    - destruct w; auto. destruct v; auto. cbn [fst snd]. split; [|apply with_data_class].
      destruct (conforms_data classes registry table c1 (proj1 F1)) as (C & HC & HK & ND & HS). destruct (HS _ _ E) as (kd & Hkd & J).
      eapply fine_dset; try eassumption. inversion J; subst. constructor.
      eapply cc_dicts; [exact closed | exact (proj2 F1) | exact HC | apply dget_Some_In; exact Hkd | eassumption].
    - destruct v; auto. split; [|eapply fine_class_kept; apply update_sub_differs]. apply fine_update_sub; [exact IH | exact F1|].
      eapply (G1 [name]). left. reflexivity. }
  destruct X as [X1 X2]. destruct (update_item (update_fuel f) c1 key v n1) as [[c2 n2] [e|]]; cbn in X1, X2; [auto|].
  rewrite <- X2. apply IHk; [|exact X1]. intros k w I. eapply G1. right. exact I.
Qed.

Lemma keeps_update : keeps update.
Proof. intros c d n. apply keeps_update_fuel. Qed.

Lemma fine_at : forall f, (forall c n, fine c -> fine (fst (fst (f c n))) /\ cfg_class (fst (fst (f c n))) = cfg_class c) ->
  forall path c n, fine c -> fine (fst (fst (@at_path A f c path n))) /\ cfg_class (fst (fst (at_path f c path n))) = cfg_class c.
Proof.
  intros f Hf. induction path as [|p path IH]; intros c n Fc; cbn [at_path]; [apply Hf; exact Fc|].
  destruct (dget (cfg_data c) p) as [[| |s]|] eqn:E; auto.
  pose proof (fine_update_sub (fun s _ n => at_path f s path n) c p [] n) as X. unfold update_sub in X. rewrite E in X.
  assert (Kp : keeps (fun s _ n => at_path f s path n)) by (intros s0 d0 n0 F0 _; apply IH; exact F0).
  specialize (X Kp Fc). destruct (at_path f s path n) as [[s' n'] e]. cbn [fst snd] in *. split; [|apply with_data_class].
  apply X. constructor. intros ? ? [].
Qed.

Lemma fine_clear : forall c n c' n', fine c -> clear classes depth c n = (c', n', None) -> fine c' /\ cfg_class c' = cfg_class c.
Proof.
  intros c n c' n' Fc E. unfold clear in E.
  destruct (instantiate depth (cfg_class c) (cfg_root c) (cfg_mesh c) n) as [[c1 n1]|e] eqn:Ei; [|discriminate].
  injection E as <- <-. assert (K : cfg_class c1 = cfg_class c) by (eapply instantiate_labelled; exact Ei). split; [|exact K].
  split; [eapply instantiate_conforms; [exact (proj2 Fc) | exact Ei] | rewrite K; apply Fc].
Qed.

(** Default instances of the classes can be built. *)
Hypothesis buildable : forall cls r m n, S cls -> exists c n', instantiate depth cls r m n = Ok (c, n').

Lemma fine_step : forall c n o, fine c -> good_statement o -> fine (fst (fst (step c n o))) /\ cfg_class (fst (fst (step c n o))) = cfg_class c.
Proof.
  intros c n [path name v|path kw|path] Fc G; apply fine_at; try exact Fc; clear c n Fc; intros c n Fc.
  - apply fine_set_option; [apply keeps_update | exact Fc | exact G].
  - apply keeps_update; [exact Fc|]. constructor. exact G.
  - destruct (buildable (cfg_class c) (cfg_root c) (cfg_mesh c) n (proj2 Fc)) as (c' & n' & E).
    pose proof (fine_clear c n c' n' Fc) as H. unfold clear in *. rewrite E in *. cbn. apply H. reflexivity.
Qed.

Lemma fine_run : forall ops c n, fine c -> (forall o, In o ops -> good_statement o) -> fine (fst (run c n ops)) /\ cfg_class (fst (run c n ops)) = cfg_class c.
Proof.
  induction ops as [|o ops IH]; intros c n Fc G; cbn; [auto|].
  destruct (fine_step c n o Fc (G o (or_introl eq_refl))) as [F1 K1]. destruct (step c n o) as [[c1 n1] e]. cbn in *.
  rewrite <- K1. apply IH; [exact F1|]. intros; apply G; right; assumption.
Qed.

Lemma fine_defaults : forall c, fine c -> defaults_conform classes registry depth c.
Proof.
  intros c [Hc Sc] s R. assert (Ss : S (cfg_class s) /\ conforms s).
  { induction R as [c|cls r m data k s s' I R IH]; [auto|]. apply IH.
    - eapply (conforms_sub classes registry table (Cfg cls r m data)); [exact Hc|].
      destruct (conforms_data classes registry table _ Hc) as (C & _ & _ & ND & _). apply NoDup_In_dget; eassumption.
    - destruct (conforms_data classes registry table _ Hc) as (C & HC & HK & ND & HS). cbn in HC, HK, ND, HS.
      destruct (HS k (SSub s)) as (kd & Hkd & J); [apply NoDup_In_dget; eassumption|]. cbn in Sc. inversion J; subst.
      + eapply cc_unique; [exact closed | exact Sc | exact HC | apply dget_Some_In; exact Hkd].
      + destruct (cc_interface _ _ _ closed _ _ _ _ _ Sc HC (dget_Some_In _ _ _ Hkd)) as (tr & Ht & Hall & _).
        match goal with H : dget registry iface = Some tree |- _ => rewrite Ht in H; injection H as -> end.
        eapply Hall. eassumption. }
  intros r m n. destruct (buildable (cfg_class s) r m n (proj1 Ss)) as (c' & n' & E). exists c', n'. split; [exact E|].
  eapply instantiate_conforms; [apply Ss | exact E].
Qed.
End L.
