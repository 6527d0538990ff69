(** Every stored value was produced by the setter of its option. *)
From Coq Require Import String List Bool Arith Lia.
From Verif Require Import Base Dict M_Config S_Config L_Stream L_ConfigTree L_Config L_Default.
Import ListNotations.
Local Open Scope string_scope.
Local Open Scope list_scope.

Section L.
Context {A : Type}.
Variable classes : dict (class A).
Variable registry : dict (dict string).
Variable depth : nat.
Notation set_option := (set_option classes registry depth).
Notation set_item := (set_item classes registry depth).
Notation update_key := (update_key classes registry depth).
Notation update_keys := (update_keys classes registry depth).
Notation update_fuel := (update_fuel classes registry depth).
Notation update := (update classes registry depth).
Notation step := (step classes registry depth).
Notation run := (run classes registry depth).
Notation instantiate := (@instantiate A classes).
Notation acc := (@accepted_values A classes).
Notation acc_value := (@accepted_value A classes).

Hypothesis distinct : forall cls C, dget classes cls = Some C -> NoDup (map fst (k_opts C)).

(** One stored option. *)
Definition slot_acc (cls name : string) (sl : slot A) : Prop :=
  match sl with
  | SPlain v | SParam _ v => forall d fset,
      find_kind classes cls name = Some (KPlain d fset) \/ find_kind classes cls name = Some (KParam d fset) ->
      (forall e, v <> VDict e) -> exists u, fset u = Ok v
  | SSub s => acc s
  end.

Lemma acc_slots : forall c, acc c <-> forall name sl, In (name, sl) (cfg_data c) -> slot_acc (cfg_class c) name sl.
Proof.
  intros c. split.
  - intros H name sl I. destruct sl as [v|id v|s]; cbn.
    + intros d fs K. eapply (H c name v); [constructor | exact K | left; exact I].
    + intros d fs K. eapply (H c name v); [constructor | exact K | right; exists id; exact I].
    + intros s' n v d fs R. apply H. destruct c. cbn in I. eapply reaches_sub; eassumption.
  - intros H s n v d fs R. inversion R as [c0|cls r m data k s1 s' I R']; subst.
    + intros K [I|[id I]]; apply (H _ _ I d fs K).
    + exact (H k (SSub s1) I s n v d fs R').
Qed.

Lemma acc_dset : forall c name sl, acc c -> slot_acc (cfg_class c) name sl -> acc (with_data c (dset (cfg_data c) name sl)).
Proof.
  intros c name sl H Hs. apply acc_slots. rewrite with_data_class, with_data_data. intros n s I. apply In_dset in I.
  destruct I as [E|I]; [injection E as -> ->; exact Hs|]. exact (proj1 (acc_slots c) H _ _ I).
Qed.

Lemma acc_get : forall c name s, acc c -> dget (cfg_data c) name = Some (SSub s) -> acc s.
Proof. intros c name s H E. apply dget_Some_In in E. exact (proj1 (acc_slots c) H _ _ E). Qed.

Lemma acc_relabel : forall r m c, acc c -> acc (relabel r m c).
Proof.
  intros r m c. remember (csize c) as N. revert c HeqN. induction N as [N IH] using lt_wf_ind.
  intros [cls r0 m0 data] -> H. apply acc_slots. cbn [relabel cfg_class cfg_data]. intros name sl I. apply in_map_iff in I.
  destruct I as ([k sl'] & E & I). pose proof (proj1 (acc_slots _) H _ _ I) as J. cbn [cfg_class] in J.
  destruct sl' as [v|i v|s]; injection E as <- <-; try exact J. cbn. eapply IH; [eapply csize_sub; exact I | reflexivity | exact J].
Qed.

Lemma acc_instantiate : forall f cls r m n c n', instantiate f cls r m n = Ok (c, n') -> acc c.
Proof.
  induction f as [|f IH]; intros cls r m n c n' E; cbn [M_Config.instantiate] in E; [discriminate|].
  destruct (dget classes cls) as [C|] eqn:HC; [|discriminate]. pose proof (distinct _ _ HC) as ND.
  assert (G : forall opts d0 n0 res, (forall nk, In nk opts -> In nk (k_opts C)) ->
    (forall name sl, In (name, sl) d0 -> slot_acc cls name sl) ->
    fold_left (reset_option (fun c n => instantiate f c r m n)) opts (Ok (d0, n0)) = Ok res ->
    forall name sl, In (name, sl) (fst res) -> slot_acc cls name sl).
  { induction opts as [|[name kd] opts IHo]; intros d0 n0 res Sub H F; cbn in F.
    - injection F as <-. exact H.
    - assert (X : forall d1 n1 sl, d1 = dset d0 name sl -> slot_acc cls name sl ->
        fold_left (reset_option (fun c n => instantiate f c r m n)) opts (Ok (d1, n1)) = Ok res ->
        forall name sl, In (name, sl) (fst res) -> slot_acc cls name sl).
      { intros d1 n1 sl -> Hs F1. eapply IHo; [|clear F1|exact F1]; [intros; apply Sub; right; assumption|].
        intros n2 s2 I. apply In_dset in I. destruct I as [E0|I]; [injection E0 as -> ->; exact Hs | apply H; exact I]. }
      assert (Hk : find_kind classes cls name = Some kd).
      { unfold find_kind. rewrite HC. apply NoDup_In_dget; [exact ND|]. apply Sub. left. reflexivity. }
      destruct kd as [d fs|d fs|cl|ifc cl|cl []].
      + destruct (fs d) as [w|] eqn:Ef; cbn in F; [|exfalso; pose proof (eq_trans (eq_sym (reset_fold_err _ opts _)) F); discriminate].
        eapply X; [reflexivity| |exact F]. cbn. intros d1 fs1 [K|K] _; rewrite Hk in K; [injection K as <- <-|discriminate]. eauto.
      + destruct (fs d) as [w|] eqn:Ef; cbn in F; [|exfalso; pose proof (eq_trans (eq_sym (reset_fold_err _ opts _)) F); discriminate].
        eapply X; [reflexivity| |exact F]. cbn. intros d1 fs1 [K|K] _; rewrite Hk in K; [discriminate|injection K as <- <-]. eauto.
      + destruct (instantiate f cl r m n0) as [[s y]|] eqn:Ei; cbn in F; [|exfalso; pose proof (eq_trans (eq_sym (reset_fold_err _ opts _)) F); discriminate].
        exact (X _ _ (SSub s) eq_refl (IH _ _ _ _ _ _ Ei) F).
      + destruct (instantiate f cl r m n0) as [[s y]|] eqn:Ei; cbn in F; [|exfalso; pose proof (eq_trans (eq_sym (reset_fold_err _ opts _)) F); discriminate].
        exact (X _ _ (SSub s) eq_refl (IH _ _ _ _ _ _ Ei) F).
      + destruct (instantiate f cl r m n0) as [[s y]|] eqn:Ei; cbn in F; [|exfalso; pose proof (eq_trans (eq_sym (reset_fold_err _ opts _)) F); discriminate].
        exact (X _ _ (SSub s) eq_refl (IH _ _ _ _ _ _ Ei) F).
      + eapply IHo; [|exact H|exact F]. intros; apply Sub; right; assumption. }
  destruct (fold_left _ _ _) as [res|e] eqn:F; cbn in E; [|discriminate]. injection E as <- <-.
  apply acc_slots. cbn. eapply G; [| |exact F]; [auto | intros ? ? []].
Qed.

Definition keeps_acc (u : cfg A -> kwargs A -> nat -> out A) : Prop :=
  forall c d n, acc c -> acc_value (VDict d) -> acc (fst (fst (u c d n))).

Lemma acc_update_sub : forall u c name d n, keeps_acc u -> acc c -> acc_value (VDict d) -> acc (fst (fst (update_sub u c name d n))).
Proof.
  intros u c name d n U Hc Hd. unfold update_sub. destruct (dget (cfg_data c) name) as [[| |s]|] eqn:E; try exact Hc.
  pose proof (U s d n (acc_get _ _ _ Hc E) Hd) as H. destruct (u s d n) as [[s' n'] e]. cbn in *. apply acc_dset; assumption.
Qed.

Lemma acc_store_fresh : forall c name cls n, acc c -> acc (fst (fst (store_fresh classes depth c name cls n))).
Proof.
  intros c name cls n Hc. unfold store_fresh. destruct (instantiate depth cls _ _ n) as [[s n2]|x] eqn:E; [|exact Hc].
  cbn. apply acc_dset; [exact Hc|]. exact (acc_instantiate _ _ _ _ _ _ _ E).
Qed.

Lemma acc_set_option : forall u c name v n, keeps_acc u -> acc c -> acc_value v -> acc (fst (fst (set_option u c name v n))).
Proof.
  intros u c name v n U Hc Hv. unfold M_Config.set_option.
  destruct (find_kind classes (cfg_class c) name) as [[d fs|d fs|cls|iface cls|cls d]|] eqn:K; [| | | | |exact Hc].
  - destruct (fs v) as [w|] eqn:Ef; [|exact Hc]. apply acc_dset; [exact Hc|]. cbn. intros d1 fs1 [Q|Q] _; rewrite K in Q; [injection Q as <- <-; eauto | discriminate].
  - destruct (fs v) as [w|] eqn:Ef; [|exact Hc]. destruct (dget (cfg_data c) name) as [[| |]|]; try exact Hc.
    apply acc_dset; [exact Hc|]. cbn. intros d1 fs1 [Q|Q] _; rewrite K in Q; [discriminate | injection Q as <- <-; eauto].
  - destruct v; try exact Hc.
    + destruct (String.eqb s (class_name classes cls)); [apply acc_store_fresh; exact Hc | exact Hc].
    + apply acc_update_sub; assumption.
    + destruct (is_instance classes c0 cls); [|exact Hc]. apply acc_dset; [exact Hc|]. apply acc_relabel. inversion Hv; subst; assumption.
  - destruct v; try exact Hc.
    + destruct (dget registry iface) as [tree|]; [|exact Hc]. destruct (dget tree s) as [k|]; [|exact Hc].
      destruct (dget (cfg_data c) name) as [[| |cur]|]; try exact Hc. destruct (is_instance classes cur k); [exact Hc | apply acc_store_fresh; exact Hc].
    + apply acc_update_sub; assumption.
    + destruct (is_instance classes c0 iface); [|exact Hc]. apply acc_dset; [exact Hc|]. apply acc_relabel. inversion Hv; subst; assumption.
  - assert (D : acc (with_data c (ddel (cfg_data c) name))).
    { apply acc_slots. rewrite with_data_class, with_data_data. intros m s I. apply In_ddel in I. exact (proj1 (acc_slots c) Hc _ _ I). }
    destruct v as [a|[]|s|e|t]; try exact Hc; [apply acc_store_fresh; exact Hc | exact D|].
    destruct (String.eqb s name); [apply acc_store_fresh; exact Hc | exact Hc].
Qed.

Definition acc_kw (kw : kwargs A) : Prop := forall k v, In (k, v) kw -> acc_value v.
Lemma acc_kset : forall kw k v, acc_kw kw -> acc_value v -> acc_kw (kset kw k v).
Proof. intros kw k v G Gv k' v' I. apply In_kset in I. destruct I as [E|I]; [injection E as -> ->; exact Gv | eapply G; exact I]. Qed.
Lemma acc_kdel : forall kw k, acc_kw kw -> acc_kw (kdel kw k).
Proof. intros kw k G k' v' I. eapply G. eapply In_kdel. exact I. Qed.

Lemma acc_set_item : forall u t args v n t' n', keeps_acc u -> acc_value t -> acc_value v -> set_item u t args v n = (Ok t', n') -> acc_value t'.
Proof.
  intros u t args v n t' n' U Gt Gv E. unfold M_Config.set_item in E. destruct t as [| | |d|c]; try discriminate.
  - injection E as <- _. constructor. inversion Gt; subst. exact (acc_kset d args v H0 Gv).
  - destruct args as [|a [|]]; try (injection E as <- _; exact Gt).
    inversion Gt; subst. pose proof (acc_set_option u c a v n U H0 Gv) as F.
    destruct (set_option u c a v n) as [[c2 n2] [e|]]; [discriminate|]. injection E as <- _. constructor. exact F.
Qed.

Lemma acc_update_key : forall u c kw key n, keeps_acc u -> acc c -> acc_kw kw ->
  acc (fst (fst (fst (update_key u c kw key n)))) /\ acc_kw (snd (fst (fst (update_key u c kw key n)))).
Proof.
  intros u c kw key n U Hc G. unfold M_Config.update_key.
  destruct (kget kw key) as [v|] eqn:Ev; [|auto]. destruct key as [|name args]; [auto|].
  assert (Gv : acc_value v) by (eapply G; apply kget_In; exact Ev).
  pose proof (acc_kdel kw (name :: args) G) as Gd.
  destruct (stored c name); [|auto]. destruct args as [|a args].
  - pose proof (acc_set_option u c name v n U Hc Gv) as F1. destruct (set_option u c name v n) as [[c2 n2] e]. auto.
  - destruct (kget kw [name]) as [t|] eqn:Et.
    + assert (Gt : acc_value t) by (eapply G; apply kget_In; exact Et).
      destruct (set_item u t (a :: args) v n) as [[t'|e] n2] eqn:Ei; [|auto]. split; [exact Hc|].
      apply acc_kset; [exact Gd|]. exact (acc_set_item u t (a :: args) v n t' n2 U Gt Gv Ei).
    + split; [exact Hc|]. apply acc_kset; [exact Gd|]. constructor. intros k w [E|[]]. injection E as <- <-. exact Gv.
Qed.

Lemma keeps_acc_fuel : forall f, keeps_acc (update_fuel f).
Proof.
  induction f as [|f IH]; intros c d n Hc Gd; [exact Hc|]. cbn [M_Config.update_fuel].
  assert (Gk : acc_kw d) by (inversion Gd; subst; assumption). clear Gd.
  assert (K : forall keys c kw n, acc c -> acc_kw kw -> let r := update_keys (update_fuel f) c kw keys n in acc (fst (fst (fst r))) /\ acc_kw (snd (fst (fst r)))).
  { induction keys as [|key keys IHk]; intros c0 kw0 n0 F0 G0; cbn; [auto|].
    destruct (acc_update_key (update_fuel f) c0 kw0 key n0 IH F0 G0) as (F1 & G1).
    destruct (update_key (update_fuel f) c0 kw0 key n0) as [[[c1 kw1] n1] [e|]]; cbn in *; [auto|]. apply IHk; assumption. }
  specialize (K (map fst d) c d n Hc Gk). cbn in K.
  destruct (update_keys (update_fuel f) c d (map fst d) n) as [[[c1 kw1] n1] [e|]]; cbn in K; destruct K as (F1 & G1); [exact F1|].
  clear Hc Gk c d n. revert c1 n1 F1.
  induction kw1 as [|[key v] kw1 IHk]; intros c1 n1 F1; cbn; [auto|].
  assert (X : acc (fst (fst (update_item (update_fuel f) c1 key v n1)))).
  { unfold update_item. destruct key as [|name [|]]; auto.
    destruct (dget (cfg_data c1) name) as [[w|i w|s]|] eqn:E; auto.
    - destruct w; auto. destruct v; auto. cbn [fst snd]. apply acc_dset; [exact F1|]. cbn. intros ? ? _ N. exfalso. exact (N _ eq_refl).
    - destruct v; auto. apply acc_update_sub; [exact IH | exact F1|]. eapply (G1 [name]). left. reflexivity. }
  destruct (update_item (update_fuel f) c1 key v n1) as [[c2 n2] [e|]]; cbn in X; [exact X|].
  apply IHk; [|exact X]. intros k w I. eapply G1. right. exact I.
Qed.

Lemma acc_at : forall f, (forall c n, acc c -> acc (fst (fst (f c n)))) -> forall path c n, acc c -> acc (fst (fst (@at_path A f c path n))).
Proof.
  intros f Hf. induction path as [|p path IH]; intros c n Hc; cbn [at_path]; [apply Hf; exact Hc|].
  destruct (dget (cfg_data c) p) as [[| |s]|] eqn:E; auto.
  pose proof (IH s n (acc_get _ _ _ Hc E)) as H. destruct (at_path f s path n) as [[s' n'] e]. cbn in *. apply acc_dset; assumption.
Qed.

Lemma acc_step : forall c n o, acc c -> accepted_statement classes o -> acc (fst (fst (step c n o))).
Proof.
  intros c n [path name v|path kw|path] Hc G; apply acc_at; try exact Hc; clear c n Hc; intros c n Hc.
  - apply acc_set_option; [intros c0 d0 n0; apply keeps_acc_fuel | exact Hc | exact G].
  - apply keeps_acc_fuel; [exact Hc | constructor; exact G].
  - unfold clear. destruct (instantiate depth (cfg_class c) (cfg_root c) (cfg_mesh c) n) as [[c' n']|e] eqn:E; cbn.
    + exact (acc_instantiate _ _ _ _ _ _ _ E).
    + apply acc_slots. rewrite with_data_data. intros ? ? [].
Qed.

Lemma acc_run : forall ops c n, acc c -> (forall o, In o ops -> accepted_statement classes o) -> acc (fst (run c n ops)).
Proof.
  induction ops as [|o ops IH]; intros c n Hc G; cbn; [exact Hc|].
  pose proof (acc_step c n o Hc (G o (or_introl eq_refl))) as H. destruct (step c n o) as [[c1 n1] e]. cbn in H.
  apply IH; [exact H|]. intros; apply G; right; assumption.
Qed.
End L.
