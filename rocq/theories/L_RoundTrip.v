(** Lemmas on flattened settings (C25). *)
From Coq Require Import String List Bool Arith Lia FinFun.
From Verif Require Import Base Dict M_Config S_Config L_Stream L_ConfigTree L_Config L_Nested.
Import ListNotations.
Local Open Scope string_scope.
Local Open Scope list_scope.

Section L.
Context {A : Type}.
Variable classes : dict (class A).
Variable registry : dict (dict string).
Variable depth : nat.
Hypothesis table : good_table classes registry.
Notation set_option := (set_option classes registry depth).
Notation update := (update classes registry depth).
Notation assign := (assign classes registry depth).
Notation step := (step classes registry depth).
Notation run_stop := (run_stop classes registry depth).
Notation instantiate := (@instantiate A classes).
Notation conforms := (@conforms A classes registry).
Notation slot_conforms := (@slot_conforms A classes registry).
Notation to_tree := (@to_tree A classes).

(** ** Shape of a flattened tree *)

(** The entries of one option. *)
Definition block (h : string -> bool) (ks : string * slot A) : kwargs A :=
  match ks with (k, s) =>
    if h k then []
    else match s with
         | SPlain v => [([k], v)]
         | SParam _ v => [([k], v)]
         | SSub sub => ([k], VStr (class_name classes (cfg_class sub))) :: map (fun pv => (k :: fst pv, snd pv)) (to_tree sub)
         end
  end.

Lemma to_tree_blocks : forall cls r m data, to_tree (Cfg cls r m data) = flat_map (block (hidden classes cls data)) data.
Proof.
  intros. cbn [M_Config.to_tree]. apply flat_map_ext. intros [k s]. unfold block. reflexivity.
Qed.

Lemma block_heads : forall h k s key v, In (key, v) (block h (k, s)) -> exists args, key = k :: args.
Proof.
  intros h k s key v I. unfold block in I. destruct (h k); [contradiction|]. destruct s as [w|i w|sub].
  - destruct I as [E|[]]. injection E as <- _. exists []. reflexivity.
  - destruct I as [E|[]]. injection E as <- _. exists []. reflexivity.
  - destruct I as [E|I]; [injection E as <- _; exists []; reflexivity|].
    apply in_map_iff in I. destruct I as ([p w] & E & I). injection E as <- _. exists p. reflexivity.
Qed.

Lemma blocks_heads : forall h l key v, In (key, v) (flat_map (block h) l) -> exists k args, key = k :: args /\ In k (map fst l).
Proof.
  intros h l key v I. apply in_flat_map in I. destruct I as ([k s] & I & J). apply block_heads in J. destruct J as (args & ->).
  exists k, args. split; [reflexivity|]. apply in_map_iff. exists (k, s). auto.
Qed.

Lemma to_tree_nonempty_keys : forall c : cfg A, ~ In [] (map fst (to_tree c)).
Proof.
  intros [cls r m data] I. rewrite to_tree_blocks in I. apply in_map_iff in I. destruct I as ([k v] & E & I). cbn in E. subst.
  apply blocks_heads in I. destruct I as (k & args & E & _). discriminate.
Qed.

Lemma NoDup_app' : forall T (a b : list T), NoDup a -> NoDup b -> (forall x, In x a -> ~ In x b) -> NoDup (a ++ b).
Proof.
  induction a as [|x a IH]; intros b Na Nb H; cbn; [exact Nb|]. inversion Na; subst. constructor.
  - intros I. apply in_app_or in I. destruct I as [I|I]; [contradiction|]. apply (H x); [left; reflexivity | exact I].
  - apply IH; auto. intros y I. apply H. right. exact I.
Qed.

(** All configurations below have distinct option names. *)
Definition distinct (c : cfg A) : Prop := forall s, reaches c s -> NoDup (map fst (cfg_data s)).

Lemma conforms_data : forall c, conforms c -> exists C, dget classes (cfg_class c) = Some C /\
  map fst (cfg_data c) = map fst (k_opts C) /\ NoDup (map fst (cfg_data c)) /\
  (forall k sl, dget (cfg_data c) k = Some sl -> exists kd, dget (k_opts C) k = Some kd /\ slot_conforms kd sl).
Proof.
  intros c H. destruct H as [cls r m data C HC HK HS]. exists C. cbn. split; [exact HC|]. split; [exact HK|]. split.
  - rewrite HK. eapply gt_distinct; eassumption.
  - intros k sl E. apply HS. apply dget_Some_In. exact E.
Qed.

Lemma conforms_intro : forall c C, dget classes (cfg_class c) = Some C -> map fst (cfg_data c) = map fst (k_opts C) ->
  (forall k sl, dget (cfg_data c) k = Some sl -> exists kd, dget (k_opts C) k = Some kd /\ slot_conforms kd sl) -> conforms c.
Proof.
  intros [cls r m data] C HC HK HS. cbn in *. eapply conforms_cfg; eauto. intros k sl I. apply HS.
  apply NoDup_In_dget; [|exact I]. unfold dkeys. rewrite HK. eapply gt_distinct; eassumption.
Qed.

Lemma conforms_sub : forall c k s, conforms c -> dget (cfg_data c) k = Some (SSub s) -> conforms s.
Proof.
  intros c k s H E. destruct (conforms_data c H) as (C & _ & _ & _ & HS). destruct (HS _ _ E) as (kd & _ & J).
  inversion J; subst; assumption.
Qed.

Lemma to_tree_proper : forall N c, csize c < N -> conforms c -> proper_keys (to_tree c) /\ keyword_first (to_tree c).
Proof.
  induction N as [|N IH]; intros c L H; [lia|].
  destruct (conforms_data c H) as (C & HC & HK & ND & HS). destruct c as [cls r m data]. cbn in HC, HK, ND, HS.
  rewrite to_tree_blocks. set (h := hidden classes cls data). clearbody h.
  assert (HI : forall k s, In (k, SSub s) data -> proper_keys (to_tree s)).
  { intros k s I. apply IH; [pose proof (csize_sub cls r m data k s I); lia|].
    apply (conforms_sub (Cfg cls r m data) k); [exact H|]. apply NoDup_In_dget; assumption. }
  clear HK HS L H HC. assert (G : forall l, NoDup (map fst l) -> (forall e, In e l -> In e data) ->
    NoDup (map fst (flat_map (block h) l)) /\ keyword_first (flat_map (block h) l)).
  { induction l as [|[k s] l IHl]; intros N0 Sub; cbn [flat_map].
    - split; [constructor|]. intros l1 l2 n args v E. destruct l1; discriminate.
    - inversion N0; subst. destruct IHl as [I1 I2]; [assumption | intros; apply Sub; right; assumption|].
      assert (HB : NoDup (map fst (block h (k, s))) /\ forall l1 l2 n args v, block h (k, s) = l1 ++ (n :: args, v) :: l2 -> ~ In [n] (map fst l2)).
      { unfold block. destruct (h k); [split; [constructor | intros [|] ? ? ? ? E; discriminate]|].
        assert (S1 : forall v, NoDup (map fst [([k], v) : list string * val A]) /\
           forall l1 l2 n args w, [([k], v)] = l1 ++ (n :: args, w) :: l2 -> ~ In [n] (map fst l2)).
        { intros v. split; [repeat constructor; intros []|]. intros l1 l2 n args w E.
          destruct l1 as [|? [|]]; cbn in E; try discriminate. injection E as _ _ _ <-. intros []. }
        destruct s as [w|i w|sub]; [apply S1 | apply S1|].
        assert (PS : proper_keys (to_tree sub)) by (eapply HI; apply Sub; left; reflexivity).
        destruct PS as [PN PE]. split.
        - cbn [map fst]. rewrite map_map. cbn. constructor.
          + rewrite in_map_iff. intros ([p w] & E & I). cbn in E. injection E as ->. apply PE. apply in_map_iff. exists ([], w). auto.
          + rewrite <- (map_map fst (cons k)). apply FinFun.Injective_map_NoDup; [intros x y E; injection E; auto | exact PN].
        - intros l1 l2 n args v E I. apply in_map_iff in I. destruct I as ([p w] & Ep & I). cbn in Ep. subst p.
          destruct l1 as [|e l1]; cbn in E.
          + injection E as <- _ _ E. subst l2. apply in_map_iff in I. destruct I as ([p w'] & Ep & I). injection Ep as -> _.
            apply PE. apply in_map_iff. exists ([], w'). auto.
          + injection E as _ E. assert (I' : In ([n], w) (map (fun pv : list string * val A => (k :: fst pv, snd pv)) (to_tree sub))).
            { rewrite E. apply in_or_app. right. right. exact I. }
            apply in_map_iff in I'. destruct I' as ([p w'] & Ep & I'). injection Ep as _ -> _.
            apply PE. apply in_map_iff. exists ([], w'). auto. }
      destruct HB as [HB1 HB2].
      assert (Dis : forall key v w, In (key, v) (block h (k, s)) -> ~ In (key, w) (flat_map (block h) l)).
      { intros key v w I J. apply block_heads in I. destruct I as (args & ->). apply blocks_heads in J.
        destruct J as (k' & args' & E & J). injection E as <- _. contradiction. }
      split.
      + rewrite map_app. apply NoDup_app'; [exact HB1 | exact I1|]. intros key Ik Jk.
        apply in_map_iff in Ik. destruct Ik as ([? v] & E & Ik). cbn in E. subst.
        apply in_map_iff in Jk. destruct Jk as ([? w] & E & Jk). cbn in E. subst. eapply Dis; eassumption.
      + intros l1 l2 n args v E Na I.
        assert (Hcase : (exists l2', block h (k, s) = l1 ++ (n :: args, v) :: l2' /\ l2 = l2' ++ flat_map (block h) l) \/
                        (exists l1', l1 = block h (k, s) ++ l1' /\ flat_map (block h) l = l1' ++ (n :: args, v) :: l2)).
        { clear -E. revert l1 E. generalize (block h (k, s)) as b. induction b as [|e b IHb]; intros l1 E.
          - right. exists l1. auto.
          - destruct l1 as [|e' l1]; cbn in E; injection E as E0 E1.
            + left. subst. exists b. auto.
            + subst e'. destruct (IHb l1 E1) as [(l2' & -> & ->)|(l1' & -> & F)]; [left; exists l2'; auto | right; exists l1'; auto]. }
        destruct Hcase as [(l2' & Eb & ->)|(l1' & -> & Eb)].
        * rewrite map_app in I. apply in_app_or in I. destruct I as [I|I]; [eapply HB2; eassumption|].
          assert (J : In (n :: args, v) (block h (k, s))) by (rewrite Eb; apply in_or_app; right; left; reflexivity).
          apply block_heads in J. destruct J as (args' & E'). injection E' as -> _.
          apply in_map_iff in I. destruct I as ([p w] & Ep & I). cbn in Ep. subst. apply blocks_heads in I.
          destruct I as (k' & args'' & E' & I). injection E' as <- _. contradiction.
        * eapply I2; eassumption. }
  destruct (G data ND (fun e I => I)) as [G1 G2]. split; [split; [exact G1|] | exact G2].
  intros I. apply in_map_iff in I. destruct I as ([k v] & E & I). cbn in E. subst.
  apply blocks_heads in I. destruct I as (k & args & E & _). discriminate.
Qed.

(** The plain keywords of a flattened tree. *)
Definition keyword_value (s : slot A) : val A :=
  match s with SPlain v => v | SParam _ v => v | SSub sub => VStr (class_name classes (cfg_class sub)) end.

Lemma singles_block : forall h k s, singles (block h (k, s)) = if h k then [] else [(k, keyword_value s)].
Proof.
  intros h k s. unfold block. destruct (h k); [reflexivity|]. destruct s as [v|i v|sub]; try reflexivity.
  unfold singles. cbn [flat_map fst snd app]. f_equal.
  pose proof (to_tree_nonempty_keys sub) as NE. induction (to_tree sub) as [|[p w] l IH]; [reflexivity|].
  cbn in *. destruct p as [|a p]; [exfalso; apply NE; left; reflexivity|]. apply IH. tauto.
Qed.

Lemma singles_tree : forall h l, singles (flat_map (block h) l)
  = flat_map (fun ks : string * slot A => if h (fst ks) then [] else [(fst ks, keyword_value (snd ks))]) l.
Proof.
  induction l as [|[k s] l IH]; [reflexivity|]. cbn [flat_map]. rewrite singles_app, IH, singles_block. reflexivity.
Qed.

Lemma below_other : forall h k s n, n <> k -> below_name n (block h (k, s)) = [].
Proof.
  intros h k s n Hn. unfold below_name. assert (G : forall l : kwargs A, (forall key v, In (key, v) l -> exists args, key = k :: args) ->
    flat_map (fun pv => match fst pv with k0 :: a :: args => if String.eqb k0 n then [(a :: args, snd pv)] else [] | _ => [] end) l = []).
  { induction l as [|[key v] l IH]; intros H; [reflexivity|]. cbn [flat_map]. rewrite IH by (intros; eapply H; right; eassumption).
    destruct (H key v (or_introl eq_refl)) as (args & ->). cbn. destruct args; [reflexivity|].
    replace (String.eqb k n) with false by (symmetry; apply String.eqb_neq; congruence). reflexivity. }
  apply G. intros key v I. eapply block_heads. exact I.
Qed.

Lemma below_tree : forall h l n sub, NoDup (map fst l) -> In (n, SSub sub) l -> h n = false ->
  below_name n (flat_map (block h) l) = to_tree sub.
Proof.
  induction l as [|[k s] l IH]; intros n sub N I Hh; [contradiction|]. cbn [flat_map]. rewrite below_app. inversion N; subst.
  destruct I as [E|I].
  - injection E as -> ->. assert (Z : below_name n (flat_map (block h) l) = []).
    { clear -H1. induction l as [|[k s] l IH]; [reflexivity|]. cbn [flat_map]. rewrite below_app, IH by (cbn in H1; tauto).
      rewrite below_other by (cbn in H1; intros ->; apply H1; left; reflexivity). reflexivity. }
    rewrite Z, app_nil_r. unfold block. rewrite Hh. unfold below_name. cbn [flat_map fst app].
    pose proof (to_tree_nonempty_keys sub) as NE. induction (to_tree sub) as [|[p w] t IHt]; [reflexivity|].
    cbn in *. destruct p as [|a p]; [exfalso; apply NE; left; reflexivity|]. rewrite String.eqb_refl. cbn. f_equal. apply IHt. tauto.
  - assert (n <> k) by (intros ->; apply H1; apply in_map_iff; exists (k, SSub sub); auto).
    rewrite below_other by assumption. cbn. apply IH; assumption.
Qed.

Lemma dotted_tree : forall h l n, In n (dotted_names (flat_map (block h) l)) ->
  exists sub, In (n, SSub sub) l /\ h n = false /\ to_tree sub <> [].
Proof.
  intros h l n I. apply dotted_names_In in I. destruct I as (a & args & v & I). apply in_flat_map in I.
  destruct I as ([k s] & I & J). pose proof (block_heads _ _ _ _ _ J) as (args' & E). injection E as <- _.
  unfold block in J. destruct (h n) eqn:Hh; [contradiction|]. destruct s as [w|i w|sub].
  - destruct J as [J|[]]; discriminate.
  - destruct J as [J|[]]; discriminate.
  - destruct J as [J|J]; [discriminate|]. exists sub. split; [exact I|]. split; [reflexivity|].
    intros E. rewrite E in J. contradiction.
Qed.

Lemma dotted_tree_conv : forall h l n sub, In (n, SSub sub) l -> h n = false -> to_tree sub <> [] ->
  In n (dotted_names (flat_map (block h) l)).
Proof.
  intros h l n sub I Hh E. apply dotted_names_In. destruct (to_tree sub) as [|[p v] t] eqn:Et; [contradiction|].
  destruct p as [|a p]. { exfalso. apply (to_tree_nonempty_keys sub). rewrite Et. left. reflexivity. }
  exists a, p, v. apply in_flat_map. exists (n, SSub sub). split; [exact I|]. unfold block. rewrite Hh, Et. right. left. reflexivity.
Qed.

(** ** Restoring *)

(** What the first loop restores of a stored option. *)
Definition restored (sl sl' : slot A) : Prop :=
  match sl, sl' with
  | SPlain v, SPlain v' => v = v'
  | SParam _ v, SParam _ v' => v = v'
  | SSub s, SSub s' => cfg_class s = cfg_class s'
  | _, _ => False
  end.

(** Default configurations of the classes in a tree can be built and conform. *)
Definition defaults_conform (t : cfg A) : Prop := forall s, reaches t s -> forall r m n,
  exists c' n', instantiate depth (cfg_class s) r m n = Ok (c', n') /\ conforms c'.

Lemma reaches_get : forall (c : cfg A) k s, dget (cfg_data c) k = Some (SSub s) -> reaches c s.
Proof.
  intros [cls r m data] k s E. cbn in E. eapply reaches_sub; [apply dget_Some_In; exact E | apply reaches_self].
Qed.

Lemma reaches_trans : forall a b c : cfg A, reaches a b -> reaches b c -> reaches a c.
Proof. induction 1; intros; [assumption|]. eapply reaches_sub; eauto. Qed.

Lemma conforms_dset : forall c C k kd sl, conforms c -> dget classes (cfg_class c) = Some C ->
  dget (k_opts C) k = Some kd -> slot_conforms kd sl -> conforms (with_data c (dset (cfg_data c) k sl)).
Proof.
  intros c C k kd sl H HC Hk Hs. destruct (conforms_data c H) as (C' & HC' & HK & ND & HS). rewrite HC in HC'. injection HC' as <-.
  apply (conforms_intro _ C).
  - rewrite with_data_class. exact HC.
  - rewrite with_data_data, <- HK. apply dkeys_dset_present. unfold dkeys. rewrite HK. apply (dget_In_keys _ _ _ Hk).
  - intros k' sl' E. rewrite with_data_data in E. rewrite dget_dset in E. destruct (String.eqb k' k) eqn:Ek.
    + apply String.eqb_eq in Ek. subst. injection E as <-. exists kd. auto.
    + apply HS. exact E.
Qed.

Lemma restore_option : forall t c k sl n, conforms t -> conforms c -> cfg_class c = cfg_class t -> defaults_conform t ->
  dget (cfg_data t) k = Some sl ->
  exists c' n' sl', assign c k (keyword_value sl) n = (c', n', None) /\ conforms c' /\ differs_only_at c c' k /\
    dget (cfg_data c') k = Some sl' /\ restored sl sl'.
Proof.
  intros t c k sl n Ht Hc Ec Hd Hk.
  destruct (conforms_data t Ht) as (C & HC & HK & ND & HS). destruct (HS _ _ Hk) as (kd & Hkd & Hsl).
  destruct (conforms_data c Hc) as (C' & HC' & HK' & ND' & HS'). rewrite Ec, HC in HC'. injection HC' as <-.
  assert (HCc : dget classes (cfg_class c) = Some C) by (rewrite Ec; exact HC).
  assert (FK : find_kind classes (cfg_class c) k = Some kd) by (unfold find_kind; rewrite HCc; exact Hkd).
  assert (Hck : exists slc, dget (cfg_data c) k = Some slc /\ slot_conforms kd slc).
  { destruct (In_keys_dget (cfg_data c) k) as (slc & E).
    - unfold dkeys. rewrite HK'. apply (dget_In_keys _ _ _ Hkd).
    - exists slc. split; [exact E|]. destruct (HS' _ _ E) as (kd' & E' & J). rewrite Hkd in E'. injection E' as <-. exact J. }
  destruct Hck as (slc & Eslc & Hslc).
  assert (Hsub : forall sub, sl = SSub sub -> slot_conforms kd (SSub sub) ->
    forall f n', instantiate depth (cfg_class sub) (cfg_root c) (cfg_mesh c) n = Ok (f, n') -> conforms f -> slot_conforms kd (SSub f)).
  { intros sub -> J f n' I Hf. apply instantiate_labelled in I. destruct I as (_ & _ & _ & Ef).
    inversion J; subst; [constructor; [exact Ef | exact Hf]|]. econstructor; try (rewrite Ef; eassumption); eassumption. }
  assert (Fresh : forall sub, sl = SSub sub -> store_fresh classes depth c k (cfg_class sub) n = store_fresh classes depth c k (cfg_class sub) n ->
    exists c' n' sl', store_fresh classes depth c k (cfg_class sub) n = (c', n', None) /\ conforms c' /\ differs_only_at c c' k /\
    dget (cfg_data c') k = Some sl' /\ restored sl sl').
  { intros sub -> _. unfold store_fresh.
    destruct (Hd sub (reaches_get _ _ _ Hk) (cfg_root c) (cfg_mesh c) n) as (f & n' & If & Cf). rewrite If.
    exists (with_data c (dset (cfg_data c) k (SSub f))), n', (SSub f). split; [reflexivity|]. split.
    - eapply conforms_dset; try eassumption. eapply (Hsub sub); eauto.
    - split; [apply differs_dset|]. split; [rewrite with_data_data; apply dget_dset_same|].
      cbn. apply instantiate_labelled in If. symmetry. apply If. }
  unfold M_Config.assign, M_Config.set_option. rewrite FK.
  inversion Hsl; subst; cbn [keyword_value].
  - rewrite H. exists (with_data c (dset (cfg_data c) k (SPlain v))), n, (SPlain v). split; [reflexivity|]. split; [eapply conforms_dset; eassumption|].
    split; [apply differs_dset|]. split; [rewrite with_data_data; apply dget_dset_same | reflexivity].
  - rewrite H. inversion Hslc; subst. rewrite Eslc. exists (with_data c (dset (cfg_data c) k (SParam id0 v))), n, (SParam id0 v). split; [reflexivity|].
    split; [eapply conforms_dset; try eassumption; constructor; exact H|].
    split; [apply differs_dset|]. split; [rewrite with_data_data; apply dget_dset_same | reflexivity].
  - rewrite String.eqb_refl. apply Fresh; reflexivity.
  - rewrite H1. unfold class_name. rewrite H0, H2. inversion Hslc; subst. rewrite Eslc.
    destruct (is_instance classes s0 (cfg_class s)) eqn:Ei; [|apply Fresh; reflexivity].
    exists c, n, (SSub s0). split; [reflexivity|]. split; [exact Hc|]. split; [apply differs_refl|]. split; [exact Eslc|]. cbn.
    unfold is_instance in Ei. match goal with H : dget classes (cfg_class s0) = Some ?X |- _ => rewrite H in Ei end.
    apply existsb_exists in Ei. destruct Ei as (b & Ib & Eb). apply String.eqb_eq in Eb. subst b.
    match goal with H : dget registry iface = Some ?t2, H' : dget registry iface = Some ?t1 |- _ =>
      tryif constr_eq t1 t2 then fail else (rewrite H in H'; injection H' as <-) end.
    eapply (gt_leaves _ _ table); eassumption.
Qed.

(** The first loop over any part of the options. *)
Lemma restore_keywords : forall t, conforms t -> defaults_conform t -> forall (h : string -> bool) (l : list (string * slot A)) c n,
  NoDup (map fst l) -> (forall k sl, In (k, sl) l -> dget (cfg_data t) k = Some sl) -> conforms c -> cfg_class c = cfg_class t ->
  exists c' n',
    run_stop c n (map (fun nv : string * val A => OAssign [] (fst nv) (snd nv))
      (flat_map (fun ks : string * slot A => if h (fst ks) then [] else [(fst ks, keyword_value (snd ks))]) l)) = (c', n', None) /\
    conforms c' /\ cfg_class c' = cfg_class t /\
    (forall k sl, In (k, sl) l -> h k = false -> exists sl', dget (cfg_data c') k = Some sl' /\ restored sl sl') /\
    (forall k, ~ In k (map fst l) -> dget (cfg_data c') k = dget (cfg_data c) k).
Proof.
  intros t Ht Hd h. induction l as [|[k sl] l IH]; intros c n ND HL Hc Ec.
  - exists c, n. cbn. split; [reflexivity|]. split; [exact Hc|]. split; [exact Ec|]. split; [intros ? ? [] | auto].
  - inversion ND; subst. cbn [flat_map fst snd]. destruct (h k) eqn:Hh.
    + cbn [app]. destruct (IH c n) as (c' & n' & E & P1 & P2 & P3 & P4); try assumption; [intros; apply HL; right; assumption|].
      exists c', n'. split; [exact E|]. split; [exact P1|]. split; [exact P2|]. split.
      * intros k' sl' [X|I] Hk'; [injection X as -> ->; congruence | eapply P3; eassumption].
      * intros k' N. apply P4. cbn in N. tauto.
    + destruct (restore_option t c k sl n Ht Hc Ec Hd (HL _ _ (or_introl eq_refl))) as (c1 & n1 & sl1 & E1 & C1 & (K1 & _ & _ & D1) & G1 & R1).
      cbn [app map M_Config.run_stop M_Config.step at_path fst snd]. rewrite E1.
      destruct (IH c1 n1) as (c' & n' & E & P1 & P2 & P3 & P4); try assumption; [intros; apply HL; right; assumption | congruence|].
      exists c', n'. split; [exact E|]. split; [exact P1|]. split; [exact P2|]. split.
      * intros k' sl' [X|I] Hk'; [|eapply P3; eassumption]. injection X as -> ->. exists sl1. split; [|exact R1].
        rewrite P4 by assumption. exact G1.
      * intros k' N. cbn in N. rewrite P4 by tauto. apply D1. intros ->. tauto.
Qed.

(** The second loop over distinct names. *)
Lemma restore_nested : forall t (kw : kwargs A) ns c n, conforms c -> cfg_class c = cfg_class t -> NoDup ns ->
  (forall k, In k ns -> exists s ts, dget (cfg_data c) k = Some (SSub s) /\ dget (cfg_data t) k = Some (SSub ts) /\
     forall n, exists s' n', update s (below_name k kw) n = (s', n', None) /\ conforms s' /\ cfg_class s' = cfg_class s /\ to_tree s' = to_tree ts) ->
  exists c' n', run_stop c n (map (fun k => OUpdate [k] (below_name k kw)) ns) = (c', n', None) /\
    conforms c' /\ cfg_class c' = cfg_class t /\
    (forall k, In k ns -> exists s s' ts, dget (cfg_data c) k = Some (SSub s) /\ dget (cfg_data c') k = Some (SSub s') /\
        dget (cfg_data t) k = Some (SSub ts) /\ cfg_class s' = cfg_class s /\ to_tree s' = to_tree ts) /\
    (forall k, ~ In k ns -> dget (cfg_data c') k = dget (cfg_data c) k).
Proof.
  intros t kw. induction ns as [|k ns IH]; intros c n Hc Ec ND H.
  - exists c, n. cbn. split; [reflexivity|]. split; [exact Hc|]. split; [exact Ec|]. split; [intros ? [] | auto].
  - inversion ND; subst. destruct (H k (or_introl eq_refl)) as (s & ts & Es & Ets & U). destruct (U n) as (s1 & n1 & E1 & Cs1 & Ks1 & T1).
    cbn [map M_Config.run_stop M_Config.step at_path]. rewrite Es, E1.
    destruct (conforms_data c Hc) as (C & HC & HK & NDc & HS). destruct (HS _ _ Es) as (kd & Hkd & J).
    assert (J1 : slot_conforms kd (SSub s1)).
    { inversion J; subst; [constructor; assumption|]. econstructor; try (rewrite Ks1; eassumption); eassumption. }
    destruct (IH (with_data c (dset (cfg_data c) k (SSub s1))) n1) as (c' & n' & E & P1 & P2 & P3 & P4).
    + eapply conforms_dset; eassumption.
    + rewrite with_data_class. exact Ec.
    + assumption.
    + intros k' I. assert (k' <> k) by (intros ->; contradiction). rewrite with_data_data, dget_dset_other by congruence.
      apply H. right. exact I.
    + exists c', n'. split; [exact E|]. split; [exact P1|]. split; [exact P2|]. split.
      * intros k' [<-|I].
        -- exists s, s1, ts. split; [exact Es|]. split; [rewrite P4 by assumption; rewrite with_data_data; apply dget_dset_same|]. auto.
        -- assert (k' <> k) by (intros ->; contradiction). destruct (P3 k' I) as (s0 & s0' & ts0 & Q1 & Q2 & Q3 & Q4).
           rewrite with_data_data, dget_dset_other in Q1 by congruence. exists s0, s0', ts0. auto.
      * intros k' N. cbn in N. rewrite P4 by tauto. rewrite with_data_data. apply dget_dset_other. intros ->. tauto.
Qed.

Lemma flat_map_aligned : forall (f g : string * slot A -> kwargs A) l1 l2, map fst l1 = map fst l2 ->
  (forall k s1 s2, In (k, s1) l1 -> In (k, s2) l2 -> f (k, s1) = g (k, s2)) -> flat_map f l1 = flat_map g l2.
Proof.
  intros f g. induction l1 as [|[k s1] l1 IH]; intros [|[k' s2] l2] E H; try discriminate; [reflexivity|].
  cbn in E. injection E as <- E. cbn [flat_map]. f_equal; [apply H; left; reflexivity|].
  apply IH; [exact E|]. intros; apply H; right; assumption.
Qed.

Lemma filter_all : forall T (f : T -> bool) l, (forall x, In x l -> f x = true) -> filter f l = l.
Proof.
  induction l as [|x l IH]; intros H; cbn; [reflexivity|]. rewrite H by (left; reflexivity). f_equal. apply IH. intros; apply H; right; assumption.
Qed.

Lemma update_empty : forall c n, update c [] n = (c, n, None).
Proof. reflexivity. Qed.

Theorem round_trip : forall t d n, conforms t -> conforms d -> cfg_class d = cfg_class t -> defaults_conform t ->
  exists d' n', update d (to_tree t) n = (d', n', None) /\ conforms d' /\ cfg_class d' = cfg_class d /\ to_tree d' = to_tree t.
Proof.
  intros t. remember (csize t) as N. revert t HeqN. induction N as [N IH] using lt_wf_ind.
  intros t -> d n Ht Hd Ec Hdef.
  destruct (to_tree_proper (S (csize t)) t (Nat.lt_succ_diag_r _) Ht) as [PK KF].
  destruct (conforms_data t Ht) as (C & HC & HK & ND & HS).
  destruct (conforms_data d Hd) as (C' & HC' & HK' & ND' & HS'). rewrite Ec, HC in HC'. injection HC' as <-.
  set (h := hidden classes (cfg_class t) (cfg_data t)).
  assert (TB : to_tree t = flat_map (block h) (cfg_data t)) by (destruct t; apply to_tree_blocks).
  assert (Hsub : forall k s, dget (cfg_data t) k = Some (SSub s) -> h k = false).
  { intros k s E. unfold h, hidden. rewrite HC. destruct (k_hidden C (sub_class (cfg_data t)) k) eqn:Eh; [|reflexivity]. exfalso.
    destruct (gt_hidden _ _ table _ _ _ _ HC Eh) as (d0 & fs & F).
    destruct (HS _ _ E) as (kd & Hkd & J). destruct F as [F|F]; rewrite F in Hkd; injection Hkd as <-; inversion J. }
  rewrite update_script; [|exact PK | exact KF|].
  2:{ intros k a args v I. rewrite TB in I.
      assert (Ik : In k (dotted_names (flat_map (block h) (cfg_data t)))) by (apply dotted_names_In; exists a, args, v; exact I).
      apply dotted_tree in Ik. destruct Ik as (sub & Ik & _ & _).
      assert (Ek : dget (cfg_data t) k = Some (SSub sub)) by (apply NoDup_In_dget; assumption).
      destruct (HS _ _ Ek) as (kd & Hkd & J). split.
      - intros w Iw. assert (Ew : dget (cfg_data d) k = Some (SPlain w)) by (apply NoDup_In_dget; assumption).
        destruct (HS' _ _ Ew) as (kd' & Hkd' & J'). rewrite Hkd in Hkd'. injection Hkd' as <-. inversion J; subst; inversion J'.
      - intros d0 fs F. unfold find_kind in F. rewrite Ec, HC, Hkd in F. injection F as ->. inversion J. }
  (* first loop *)
  assert (AS : assignments (stored d) (to_tree t) = map (fun nv : string * val A => OAssign [] (fst nv) (snd nv))
      (flat_map (fun ks : string * slot A => if h (fst ks) then [] else [(fst ks, keyword_value (snd ks))]) (cfg_data t))).
  { unfold assignments. rewrite TB, singles_tree. f_equal. apply filter_all. intros [k v] I. apply in_flat_map in I.
    destruct I as ([k' s] & I & J). cbn in *. destruct (h k'); [contradiction|]. destruct J as [J|[]]. injection J as <- _.
    unfold stored. destruct (In_keys_dget (cfg_data d) k') as (sl & Esl); [|rewrite Esl; reflexivity].
    unfold dkeys. rewrite HK', <- HK. apply in_map_iff. exists (k', s). auto. }
  rewrite AS.
  destruct (restore_keywords t Ht Hdef h (cfg_data t) d n ND) as (c1 & n1 & E1 & C1 & K1 & R1 & U1).
  { intros k sl I. apply NoDup_In_dget; assumption. } { exact Hd. } { exact Ec. }
  rewrite E1. destruct (conforms_data c1 C1) as (C1' & HC1 & HK1 & ND1 & HS1). rewrite K1, HC in HC1. injection HC1 as <-.
  (* second loop *)
  assert (SubR : forall k ts, dget (cfg_data t) k = Some (SSub ts) -> exists s1, dget (cfg_data c1) k = Some (SSub s1) /\ cfg_class s1 = cfg_class ts /\ conforms s1 /\
     forall x, exists s' x', update s1 (to_tree ts) x = (s', x', None) /\ conforms s' /\ cfg_class s' = cfg_class s1 /\ to_tree s' = to_tree ts).
  { intros k ts Ets. destruct (R1 k (SSub ts)) as (sl' & El & Rl); [apply dget_Some_In; exact Ets | eapply Hsub; exact Ets|].
    destruct sl' as [| |s1]; try contradiction. cbn in Rl. exists s1. split; [exact El|]. split; [congruence|].
    assert (Cs1 : conforms s1) by (exact (conforms_sub c1 k s1 C1 El)). split; [exact Cs1|]. intros x.
    apply (IH (csize ts)).
    - destruct t as [cls r m data]. cbn in Ets. eapply csize_sub. apply dget_Some_In. exact Ets.
    - reflexivity.
    - exact (conforms_sub t k ts Ht Ets).
    - exact Cs1.
    - congruence.
    - intros s R. apply Hdef. eapply reaches_trans; [eapply reaches_get; exact Ets | exact R]. }
  unfold nested_updates.
  destruct (restore_nested t (to_tree t) (filter (stored c1) (dotted_names (to_tree t))) c1 n1 C1 K1) as (d' & n' & E2 & C2 & K2 & R2 & U2).
  { apply filter_NoDup, dotted_names_NoDup. }
  { intros k I. apply filter_In in I. destruct I as [I _]. rewrite TB in I. apply dotted_tree in I. destruct I as (sub & I & Hh & _).
    assert (Ek : dget (cfg_data t) k = Some (SSub sub)) by (apply NoDup_In_dget; assumption).
    destruct (SubR k sub Ek) as (s1 & Es1 & _ & _ & Us). exists s1, sub. split; [exact Es1|]. split; [exact Ek|].
    rewrite TB, (below_tree h (cfg_data t) k sub ND I Hh). exact Us. }
  exists d', n'. split; [exact E2|]. split; [exact C2|]. split; [congruence|].
  (* the restored configuration flattens to the same tree *)
  destruct (conforms_data d' C2) as (C2' & HC2 & HK2 & ND2 & HS2). rewrite K2, HC in HC2. injection HC2 as <-.
  assert (Fin : forall k ts, dget (cfg_data t) k = Some (SSub ts) -> exists s', dget (cfg_data d') k = Some (SSub s') /\ cfg_class s' = cfg_class ts /\ to_tree s' = to_tree ts).
  { intros k ts Ets. destruct (SubR k ts Ets) as (s1 & Es1 & Ks1 & Cs1 & Us).
    destruct (in_dec string_dec k (filter (stored c1) (dotted_names (to_tree t)))) as [I|I].
    - destruct (R2 k I) as (s & s' & ts' & Q1 & Q2 & Q3 & Q4 & Q5). rewrite Ets in Q3. injection Q3 as <-.
      rewrite Es1 in Q1. injection Q1 as <-. exists s'. split; [exact Q2|]. split; [congruence | exact Q5].
    - exists s1. rewrite U2 by exact I. split; [exact Es1|]. split; [exact Ks1|].
      assert (Em : to_tree ts = []).
      { destruct (to_tree ts) as [|e l] eqn:Et; [reflexivity|]. exfalso. apply I. apply filter_In. split.
        - rewrite TB. eapply dotted_tree_conv; [apply dget_Some_In; exact Ets | eapply Hsub; exact Ets | rewrite Et; discriminate].
        - unfold stored. rewrite Es1. reflexivity. }
      destruct (Us 0) as (s' & x' & Ue & _ & _ & Te). rewrite Em, update_empty in Ue. injection Ue as <- _. exact Te. }
  assert (Other : forall k sl, dget (cfg_data t) k = Some sl -> (forall s, sl <> SSub s) -> h k = false -> exists sl', dget (cfg_data d') k = Some sl' /\ restored sl sl').
  { intros k sl Esl NS Hh. destruct (R1 k sl) as (sl' & El & Rl); [apply dget_Some_In; exact Esl | exact Hh|].
    exists sl'. split; [|exact Rl]. rewrite U2; [exact El|]. intros I. apply filter_In in I. destruct I as [I _].
    rewrite TB in I. apply dotted_tree in I. destruct I as (sub & I & _). assert (dget (cfg_data t) k = Some (SSub sub)) by (apply NoDup_In_dget; assumption).
    rewrite H in Esl. injection Esl as <-. exact (NS sub eq_refl). }
  assert (HH : forall k, hidden classes (cfg_class d') (cfg_data d') k = h k).
  { intros k. unfold h, hidden. rewrite K2, HC. eapply (gt_hidden_ext _ _ table); [exact HC|]. intros x. unfold sub_class.
    destruct (dget (cfg_data t) x) as [slt|] eqn:Et.
    - destruct (HS _ _ Et) as (kd & Hkd & J). destruct (In_keys_dget (cfg_data d') x) as (sld & Ed).
      { unfold dkeys. rewrite HK2, <- HK. apply in_map_iff. exists (x, slt). split; [reflexivity | apply dget_Some_In; exact Et]. }
      destruct (HS2 _ _ Ed) as (kd' & Hkd' & J'). rewrite Hkd in Hkd'. injection Hkd' as <-. rewrite Ed.
      destruct slt as [v|i v|s].
      + inversion J; subst; inversion J'; subst; reflexivity.
      + inversion J; subst; inversion J'; subst; reflexivity.
      + destruct (Fin x s Et) as (s' & E' & Ks' & _). rewrite Ed in E'. injection E' as ->. rewrite Ks'. reflexivity.
    - apply dget_None_not_In in Et. destruct (dget (cfg_data d') x) as [sld|] eqn:Ed; [|reflexivity]. exfalso. apply Et.
      unfold dkeys. rewrite HK, <- HK2. apply (dget_In_keys _ _ _ Ed). }
  assert (TB' : to_tree d' = flat_map (block (hidden classes (cfg_class d') (cfg_data d'))) (cfg_data d')) by (destruct d'; apply to_tree_blocks).
  rewrite TB', TB. symmetry. apply flat_map_aligned; [congruence|].
  intros k s1 s2 I1 I2. unfold block. rewrite HH. destruct (h k) eqn:Hh; [reflexivity|].
  assert (G1 : dget (cfg_data t) k = Some s1) by (apply NoDup_In_dget; assumption).
  assert (G2 : dget (cfg_data d') k = Some s2) by (apply NoDup_In_dget; assumption).
  destruct s1 as [v|i v|ts].
  - destruct (Other k _ G1) as (sl' & E' & R'); [discriminate | exact Hh|]. rewrite G2 in E'. injection E' as <-.
    destruct s2; try contradiction. cbn in R'. subst. reflexivity.
  - destruct (Other k _ G1) as (sl' & E' & R'); [discriminate | exact Hh|]. rewrite G2 in E'. injection E' as <-.
    destruct s2; try contradiction. cbn in R'. subst. reflexivity.
  - destruct (Fin k ts G1) as (s' & E' & Ks' & Ts'). rewrite G2 in E'. injection E' as ->. rewrite Ks', Ts'. reflexivity.
Qed.
End L.

(** The flattened tree lists exactly the settings. *)
Section Settings.
Context {A : Type}.
Variable classes : dict (class A).

Lemma tree_settings : forall (c : cfg A) path v, (forall s, reaches c s -> exists C, dget classes (cfg_class s) = Some C) ->
  (In (path, v) (to_tree classes c) <-> setting classes c path v).
Proof.
  intros c. remember (csize c) as N. revert c HeqN. induction N as [N IH] using lt_wf_ind.
  intros [cls r m data] -> path v K. rewrite to_tree_blocks, in_flat_map. split.
  - intros ([k sl] & I & J). cbn in J. destruct (hidden classes cls data k) eqn:Hh; [contradiction|].
    destruct sl as [w|id w|s].
    + destruct J as [E|[]]. injection E as <- <-. constructor; assumption.
    + destruct J as [E|[]]. injection E as <- <-. eapply setting_param; eassumption.
    + destruct J as [E|J].
      * injection E as <- <-. destruct (K s) as [C HC]; [eapply reaches_sub; [exact I | constructor]|].
        unfold class_name. rewrite HC. econstructor; eassumption.
      * apply in_map_iff in J. destruct J as ([p w] & E & J). cbn in E. injection E as <- <-.
        apply (setting_below _ _ _ _ _ _ s); try assumption. eapply IH; [eapply csize_sub; exact I | reflexivity | | exact J].
        intros s' R. apply K. eapply reaches_sub; eassumption.
  - intros S. inversion S as [? ? ? ? k w I Hh|? ? ? ? k id w I Hh|? ? ? ? k s C I Hh HC|? ? ? ? k s p w I Hh S']; subst; eexists; (split; [exact I|]); cbn; rewrite Hh.
    + left. reflexivity.
    + left. reflexivity.
    + left. unfold class_name. rewrite HC. reflexivity.
    + right. apply in_map_iff. exists (p, v). split; [reflexivity|]. eapply IH; [eapply csize_sub; exact I | reflexivity | | exact S'].
      intros s' R. apply K. eapply reaches_sub; eassumption.
Qed.
End Settings.
