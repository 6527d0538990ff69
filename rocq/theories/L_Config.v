(** Lemmas on assignments, histories and keyword interfaces (C20-C23). *)
From Coq Require Import String List Bool Arith Lia.
From Verif Require Import Base Dict M_Config S_Config L_Stream L_ConfigTree.
Import ListNotations.
Local Open Scope string_scope.
Local Open Scope list_scope.

Section L.
Context {A : Type}.
Variable classes : dict (class A).
Variable registry : dict (dict string).
Variable depth : nat.
Notation set_option := (set_option classes registry depth).
Notation update := (update classes registry depth).
Notation assign := (assign classes registry depth).
Notation instantiate := (@instantiate A classes).
Notation store_fresh := (@store_fresh A classes depth).
Notation run := (run classes registry depth).
Notation step := (step classes registry depth).
Notation clear := (@clear A classes depth).

(** ** C20: rejected and accepted assignments *)

Definition is_dict (v : val A) : Prop := match v with VDict _ => True | _ => False end.

Lemma store_fresh_err : forall c name cls n c' n' e, store_fresh c name cls n = (c', n', Some e) -> c' = c /\ n' = n.
Proof.
  intros c name cls n c' n' e. unfold M_Config.store_fresh.
  destruct (instantiate depth cls (cfg_root c) (cfg_mesh c) n) as [[s n2]|x]; intros E; [discriminate|].
  injection E as <- <- _. auto.
Qed.

Ltac fin := first [discriminate | match goal with H : (_, _, _) = (_, _, _) |- _ => injection H; intros; subst; auto end].

Lemma set_option_rejected : forall u c name v n c' n' e,
  ~ is_dict v -> set_option u c name v n = (c', n', Some e) -> c' = c /\ n' = n.
Proof.
  intros u c name v n c' n' e D H. unfold M_Config.set_option in H.
  destruct (find_kind classes (cfg_class c) name) as [[d fs|d fs|cls|iface cls|cls d]|]; [| | | | |fin].
  - destruct (fs v); fin.
  - destruct (fs v); [|fin]. destruct (dget (cfg_data c) name) as [[]|]; fin.
  - destruct v; try fin.
    + destruct (String.eqb s (class_name classes cls)); [eapply store_fresh_err; exact H | fin].
    + contradiction (D I).
    + destruct (is_instance classes c0 cls); [unfold store_instance in H|]; fin.
  - destruct v; try fin.
    + destruct (dget registry iface) as [tree|]; [|fin]. destruct (dget tree s) as [k|]; [|fin].
      destruct (dget (cfg_data c) name) as [[| |cur]|]; try fin.
      destruct (is_instance classes cur k); [fin | eapply store_fresh_err; exact H].
    + contradiction (D I).
    + destruct (is_instance classes c0 iface); [unfold store_instance in H|]; fin.
  - destruct v as [a|b|s|x|x]; [fin | | |fin|fin].
    + destruct b; [eapply store_fresh_err; exact H | fin].
    + destruct (String.eqb s name); [eapply store_fresh_err; exact H | fin].
Qed.

(** Any assignment touches only its option. *)
Lemma differs_refl : forall (c : cfg A) name, differs_only_at c c name.
Proof. intros. repeat split; auto. Qed.

Lemma differs_dset : forall (c : cfg A) name s, differs_only_at c (with_data c (dset (cfg_data c) name s)) name.
Proof.
  intros. repeat split; [apply with_data_class | apply with_data_root | apply with_data_mesh|].
  intros m H. rewrite with_data_data. apply dget_dset_other. congruence.
Qed.

Lemma differs_ddel : forall (c : cfg A) name, differs_only_at c (with_data c (ddel (cfg_data c) name)) name.
Proof.
  intros. repeat split; [apply with_data_class | apply with_data_root | apply with_data_mesh|].
  intros m H. rewrite with_data_data. apply dget_ddel_other. congruence.
Qed.

Lemma update_sub_differs : forall u (c : cfg A) name d n, differs_only_at c (fst (fst (update_sub u c name d n))) name.
Proof.
  intros. unfold update_sub. destruct (dget (cfg_data c) name) as [[]|]; try apply differs_refl.
  destruct (u c0 d n) as [[s' n'] e]. apply differs_dset.
Qed.

Lemma store_fresh_differs : forall c name cls n, differs_only_at c (fst (fst (store_fresh c name cls n))) name.
Proof.
  intros. unfold M_Config.store_fresh. destruct (instantiate depth cls (cfg_root c) (cfg_mesh c) n) as [[s n2]|x].
  - apply differs_dset.
  - apply differs_refl.
Qed.

Lemma set_option_differs : forall u c name v n, differs_only_at c (fst (fst (set_option u c name v n))) name.
Proof.
  intros u c name v n. unfold M_Config.set_option.
  destruct (find_kind classes (cfg_class c) name) as [[d fs|d fs|cls|iface cls|cls d]|]; [| | | | |apply differs_refl].
  - destruct (fs v); [apply differs_dset | apply differs_refl].
  - destruct (fs v); [|apply differs_refl].
    destruct (dget (cfg_data c) name) as [[]|]; (apply differs_dset || apply differs_refl).
  - destruct v; try apply differs_refl.
    + destruct (String.eqb s (class_name classes cls)); [apply store_fresh_differs | apply differs_refl].
    + apply update_sub_differs.
    + destruct (is_instance classes c0 cls); [apply differs_dset | apply differs_refl].
  - destruct v; try apply differs_refl.
    + destruct (dget registry iface) as [tree|]; [|apply differs_refl]. destruct (dget tree s) as [k|]; [|apply differs_refl].
      destruct (dget (cfg_data c) name) as [[| |cur]|]; try apply differs_refl.
      destruct (is_instance classes cur k); [apply differs_refl | apply store_fresh_differs].
    + apply update_sub_differs.
    + destruct (is_instance classes c0 iface); [apply differs_dset | apply differs_refl].
  - destruct v as [a|b|s|x|x]; try apply differs_refl.
    + destruct b; [apply store_fresh_differs | apply differs_ddel].
    + destruct (String.eqb s name); [apply store_fresh_differs | apply differs_refl].
Qed.

(** ** C21: parameters *)

Definition param_id (c : cfg A) (name : string) : option nat :=
  match dget (cfg_data c) name with Some (SParam id _) => Some id | _ => None end.

Definition same_params (c c' : cfg A) : Prop :=
  cfg_class c' = cfg_class c /\
  forall name d fs, find_kind classes (cfg_class c) name = Some (KParam d fs) -> forall id, param_id c name = Some id ->
    param_id c' name = Some id.

Lemma same_params_refl : forall c, same_params c c.
Proof. intros; split; auto. Qed.
Lemma same_params_trans : forall a b c, same_params a b -> same_params b c -> same_params a c.
Proof.
  intros a b c [E1 H1] [E2 H2]. split; [congruence|]. intros name d fs K id I.
  eapply H2; [rewrite E1; exact K | eapply H1; eassumption].
Qed.

Lemma same_params_differs : forall c c' name, differs_only_at c c' name ->
  (forall d fs, find_kind classes (cfg_class c) name = Some (KParam d fs) -> forall id, param_id c name = Some id -> param_id c' name = Some id) ->
  same_params c c'.
Proof.
  intros c c' name (E & _ & _ & H) K. split; [exact E|]. intros m d fs Km id I.
  destruct (string_dec m name) as [->|N]; [eapply K; eassumption|].
  unfold param_id in *. rewrite H by exact N. exact I.
Qed.

Lemma same_params_set : forall u c name v n, same_params c (fst (fst (set_option u c name v n))).
Proof.
  intros. eapply same_params_differs; [apply set_option_differs|]. intros d fs K id I.
  unfold M_Config.set_option. rewrite K. destruct (fs v); [|exact I].
  unfold param_id in *. destruct (dget (cfg_data c) name) as [[]|] eqn:E; try discriminate.
  cbn. rewrite with_data_data, dget_dset_same. exact I.
Qed.

Lemma same_params_sub : forall u c name d n, same_params c (fst (fst (update_sub u c name d n))).
Proof.
  intros. eapply same_params_differs; [apply update_sub_differs|]. intros d' fs K id I.
  unfold update_sub, param_id in *. destruct (dget (cfg_data c) name) as [[]|] eqn:E; try discriminate.
  cbn. rewrite E. exact I.
Qed.

Lemma same_params_update : forall c kw n, same_params c (fst (fst (update c kw n))).
Proof.
  intros. apply preserve_update.
  - apply same_params_refl.
  - apply same_params_trans.
  - intros; apply same_params_set.
  - intros; apply same_params_sub.
  - intros c0 name e v E. eapply same_params_differs; [apply differs_dset|]. intros d fs K id I.
    unfold param_id in I. rewrite E in I. discriminate.
Qed.

Lemma same_params_at : forall f c p path n, same_params c (fst (fst (at_path f c (p :: path) n))).
Proof.
  intros. cbn [at_path]. destruct (dget (cfg_data c) p) as [[| |s]|] eqn:E; try apply same_params_refl.
  destruct (at_path f s path n) as [[s' n'] e]. cbn [fst snd].
  eapply same_params_differs; [apply differs_dset|]. intros d fs K id I. unfold param_id in I. rewrite E in I. discriminate.
Qed.

Lemma same_params_step : forall c n o, o <> OClear [] -> same_params c (fst (fst (step c n o))).
Proof.
  intros c n o N. destruct o as [[|p path] name v|[|p path] kw|[|p path]].
  - apply same_params_set.
  - apply same_params_at.
  - apply same_params_update.
  - apply same_params_at.
  - contradiction.
  - apply same_params_at.
Qed.

Lemma same_params_run : forall ops c n, ~ In (OClear []) ops -> same_params c (fst (run c n ops)).
Proof.
  induction ops as [|o ops IH]; intros c n N; cbn; [apply same_params_refl|].
  pose proof (same_params_step c n o) as H. destruct (step c n o) as [[c1 n1] e].
  eapply same_params_trans; [apply H; intros ->; apply N; left; reflexivity | apply IH; intros I; apply N; right; exact I].
Qed.

(** Values of a plain option or parameter under a list of assigned values. *)
Fixpoint assign_all (c : cfg A) (name : string) (vs : list (val A)) (n : nat) : cfg A * nat :=
  match vs with [] => (c, n) | v :: vs => let '(c', n', _) := assign c name v n in assign_all c' name vs n' end.

Lemma run_assigns : forall vs c name n, run c n (map (OAssign []%list name) vs) = assign_all c name vs n.
Proof.
  induction vs as [|v vs IH]; intros c name n; cbn; [reflexivity|].
  destruct (assign c name v n) as [[c1 n1] e]. apply IH.
Qed.

Lemma last_valid_app : forall fs (start : val A) vs v, last_valid fs start (vs ++ [v])
  = last_valid fs (match fs v with Ok w => w | Err _ => start end) vs.
Proof.
  intros fs start vs v. induction vs as [|x vs IH]; cbn; [destruct (fs v); reflexivity|].
  destruct (fs x); [reflexivity | exact IH].
Qed.

Lemma param_last_valid : forall vs c name n d fs id v0, find_kind classes (cfg_class c) name = Some (KParam d fs) ->
  dget (cfg_data c) name = Some (SParam id v0) ->
  dget (cfg_data (fst (assign_all c name vs n))) name = Some (SParam id (last_valid fs v0 (rev vs))).
Proof.
  induction vs as [|v vs IH]; intros c name n d fs id v0 K E; cbn [assign_all rev]; [exact E|].
  unfold M_Config.assign, M_Config.set_option. rewrite K, E. rewrite last_valid_app. destruct (fs v) as [w|x] eqn:F.
  - erewrite IH; [reflexivity | rewrite with_data_class; exact K | rewrite with_data_data; apply dget_dset_same].
  - eapply IH; eassumption.
Qed.

Lemma plain_last_valid : forall vs c name n d fs v0, find_kind classes (cfg_class c) name = Some (KPlain d fs) ->
  dget (cfg_data c) name = Some (SPlain v0) ->
  dget (cfg_data (fst (assign_all c name vs n))) name = Some (SPlain (last_valid fs v0 (rev vs))).
Proof.
  induction vs as [|v vs IH]; intros c name n d fs v0 K E; cbn [assign_all rev]; [exact E|].
  unfold M_Config.assign, M_Config.set_option. rewrite K. rewrite last_valid_app. destruct (fs v) as [w|x] eqn:F.
  - erewrite IH; [reflexivity | rewrite with_data_class; exact K | rewrite with_data_data; apply dget_dset_same].
  - eapply IH; eassumption.
Qed.

(** ** C22: root and mesh *)

Definition labelled (r m : nat) (c : cfg A) : Prop := forall s, reaches c s -> cfg_root s = r /\ cfg_mesh s = m.

Lemma labelled_intro : forall cls r m data, (forall k s, In (k, SSub s) data -> labelled r m s) -> labelled r m (Cfg cls r m data).
Proof.
  intros cls r m data H s R. inversion R; subst; [auto|]. eapply H; eassumption.
Qed.

Lemma labelled_sub : forall r m cls r' m' data k s, labelled r m (Cfg cls r' m' data) -> In (k, SSub s) data -> labelled r m s.
Proof. intros r m cls r' m' data k s H I s' R. apply H. eapply reaches_sub; eassumption. Qed.

Lemma In_dset : forall V (d : dict V) k v e, In e (dset d k v) -> e = (k, v) \/ In e d.
Proof.
  induction d as [|[k' v'] d IH]; intros k v e H; cbn in *; [destruct H as [<-|[]]; auto|].
  destruct (String.eqb k k') eqn:E.
  - apply String.eqb_eq in E. subst. destruct H as [<-|H]; auto.
  - destruct H as [<-|H]; auto. apply IH in H. tauto.
Qed.

Lemma In_ddel : forall V (d : dict V) k e, In e (ddel d k) -> In e d.
Proof.
  induction d as [|[k' v'] d IH]; intros k e H; cbn in *; [contradiction|].
  destruct (String.eqb k k'); [auto|]. destruct H as [<-|H]; auto. right. eapply IH; eassumption.
Qed.

Lemma relabel_labelled : forall r m c, labelled r m (@relabel A r m c).
Proof.
  intros r m c. remember (csize c) as N. revert c HeqN.
  induction N as [N IH] using lt_wf_ind. intros [cls r0 m0 data] ->. cbn [relabel].
  apply labelled_intro. intros k s I. apply in_map_iff in I. destruct I as ([k' sl] & E & I).
  destruct sl as [v|i v|s']; try discriminate. injection E as -> <-.
  eapply IH; [|reflexivity]. eapply csize_sub. exact I.
Qed.

Lemma relabel_root_mesh : forall r m (c : cfg A), cfg_root (relabel r m c) = r /\ cfg_mesh (relabel r m c) = m.
Proof. destruct c; auto. Qed.

Lemma instantiate_labelled : forall f cls r m n c n', instantiate f cls r m n = Ok (c, n') -> labelled r m c /\ cfg_root c = r /\ cfg_mesh c = m /\ cfg_class c = cls.
Proof.
  induction f as [|f IH]; intros cls r m n c n' E; cbn [M_Config.instantiate] in E; [discriminate|].
  destruct (dget classes cls) as [C|]; [|discriminate].
  assert (G : forall opts acc res, fold_left (reset_option (fun c n => instantiate f c r m n)) opts acc = Ok res ->
    (forall res0, acc = Ok res0 -> forall k s, In (k, SSub s) (fst res0) -> labelled r m s) ->
    forall k s, In (k, SSub s) (fst res) -> labelled r m s).
  { induction opts as [|[name kd] opts IHo]; intros acc res F H k s I; cbn in F; [eapply H; eassumption|].
    eapply IHo; [exact F| |exact I]. intros [d0 n0] E0 k0 s0 I0.
    destruct acc as [[d1 n1]|e]; cbn in E0; [|discriminate].
    specialize (H _ eq_refl). cbn in H, I0.
    assert (X : forall cl, (let* sn := instantiate f cl r m n1 in Ok (dset d1 name (SSub (fst sn)), snd sn)) = Ok (d0, n0) -> labelled r m s0).
    { intros cl E1. destruct (instantiate f cl r m n1) as [[sn n2]|] eqn:E2; cbn in E1; [|discriminate].
      injection E1 as <- _. apply In_dset in I0. destruct I0 as [E3|I0].
      - injection E3 as -> ->. eapply IH. exact E2.
      - eapply H. exact I0. }
    destruct kd as [d fs|d fs|cl|ifc cl|cl []]; try (eapply X; exact E0).
    - destruct (fs d); cbn in E0; [|discriminate]. injection E0 as <- _. apply In_dset in I0.
      destruct I0 as [E3|I0]; [discriminate | eapply H; exact I0].
    - destruct (fs d); cbn in E0; [|discriminate]. injection E0 as <- _. apply In_dset in I0.
      destruct I0 as [E3|I0]; [discriminate | eapply H; exact I0].
    - injection E0 as <- _. eapply H. exact I0. }
  destruct (fold_left (reset_option (fun c n => instantiate f c r m n)) (k_opts C) (Ok ([], n))) as [[d0 n0]|] eqn:F; cbn in E; [|discriminate].
  injection E as <- <-. split; [|auto]. apply labelled_intro. apply (G _ _ _ F).
  intros res0 E0 k s I. injection E0 as <-. contradiction.
Qed.

Definition keeps_labels (c c' : cfg A) : Prop :=
  cfg_root c' = cfg_root c /\ cfg_mesh c' = cfg_mesh c /\ (shares_root_and_mesh c -> shares_root_and_mesh c').

Lemma keeps_labels_refl : forall c, keeps_labels c c.
Proof. intros c. split; [reflexivity|]. split; [reflexivity|]. auto. Qed.
Lemma keeps_labels_trans : forall a b c, keeps_labels a b -> keeps_labels b c -> keeps_labels a c.
Proof. intros a b c (E1 & F1 & H1) (E2 & F2 & H2). split; [congruence|]. split; [congruence|]. auto. Qed.

Lemma keeps_labels_data : forall c d,
  (forall k s, In (k, SSub s) d -> In (k, SSub s) (cfg_data c) \/ labelled (cfg_root c) (cfg_mesh c) s
     \/ (exists k0 s0, In (k0, SSub s0) (cfg_data c) /\ keeps_labels s0 s)) -> keeps_labels c (with_data c d).
Proof.
  intros [cls r m data] d H. cbn in *. split; [reflexivity|]. split; [reflexivity|]. intros S.
  assert (L : labelled r m (Cfg cls r m d)).
  { apply labelled_intro. intros k s I. destruct (H k s I) as [J|[J|(k0 & s0 & J & K)]].
    - eapply labelled_sub; [exact S | exact J].
    - exact J.
    - destruct K as (E1 & E2 & K).
      assert (S0 : labelled r m s0) by (eapply labelled_sub; [exact S | exact J]).
      destruct (S0 s0 (reaches_self s0)) as [R0 M0].
      assert (K' : shares_root_and_mesh s) by (apply K; intros x X; destruct (S0 x X); split; congruence).
      intros x X. destruct (K' x X). split; congruence. }
  exact L.
Qed.

Lemma keeps_labels_set : forall u c name v n, (forall c d n, keeps_labels c (fst (fst (u c d n)))) ->
  keeps_labels c (fst (fst (set_option u c name v n))).
Proof.
  intros u c name v n HU.
  assert (Hf : forall cls, keeps_labels c (fst (fst (store_fresh c name cls n)))).
  { intros cls. unfold M_Config.store_fresh. destruct (instantiate depth cls (cfg_root c) (cfg_mesh c) n) as [[s n2]|x] eqn:E; [|apply keeps_labels_refl].
    apply keeps_labels_data. intros k s0 I. apply In_dset in I. destruct I as [X|I]; [|auto].
    injection X as -> ->. right. left. eapply instantiate_labelled. exact E. }
  assert (Hi : forall t, keeps_labels c (fst (fst (store_instance c name t n)))).
  { intros t. apply keeps_labels_data. intros k s0 I. apply In_dset in I. destruct I as [X|I]; [|auto].
    injection X as -> ->. right. left. apply relabel_labelled. }
  assert (Hp : forall s, (forall x, s <> SSub x) -> keeps_labels c (with_data c (dset (cfg_data c) name s))).
  { intros s N. apply keeps_labels_data. intros k s0 I. apply In_dset in I. destruct I as [X|I]; [|auto].
    injection X as _ X. exfalso. eapply N. symmetry. exact X. }
  assert (Hd : forall d, keeps_labels c (fst (fst (update_sub u c name d n)))).
  { intros d. unfold update_sub. destruct (dget (cfg_data c) name) as [[| |s]|] eqn:E; try apply keeps_labels_refl.
    pose proof (HU s d n) as K. destruct (u s d n) as [[s' n'] e]. cbn in *.
    apply keeps_labels_data. intros k s0 I. apply In_dset in I. destruct I as [X|I]; [|auto].
    injection X as -> ->. right. right. exists name, s. split; [apply dget_Some_In; exact E | exact K]. }
  unfold M_Config.set_option.
  destruct (find_kind classes (cfg_class c) name) as [[d fs|d fs|cls|iface cls|cls d]|]; [| | | | |apply keeps_labels_refl].
  - destruct (fs v); [apply Hp; discriminate | apply keeps_labels_refl].
  - destruct (fs v); [|apply keeps_labels_refl].
    destruct (dget (cfg_data c) name) as [[]|]; (apply Hp; discriminate) || apply keeps_labels_refl.
  - destruct v; try apply keeps_labels_refl.
    + destruct (String.eqb s (class_name classes cls)); [apply Hf | apply keeps_labels_refl].
    + apply Hd.
    + destruct (is_instance classes c0 cls); [apply Hi | apply keeps_labels_refl].
  - destruct v; try apply keeps_labels_refl.
    + destruct (dget registry iface) as [tree|]; [|apply keeps_labels_refl]. destruct (dget tree s) as [k|]; [|apply keeps_labels_refl].
      destruct (dget (cfg_data c) name) as [[| |cur]|]; try apply keeps_labels_refl.
      destruct (is_instance classes cur k); [apply keeps_labels_refl | apply Hf].
    + apply Hd.
    + destruct (is_instance classes c0 iface); [apply Hi | apply keeps_labels_refl].
  - destruct v as [a|b|s|x|x]; try apply keeps_labels_refl.
    + destruct b; [apply Hf |]. apply keeps_labels_data. intros k s I. left. eapply In_ddel. exact I.
    + destruct (String.eqb s name); [apply Hf | apply keeps_labels_refl].
Qed.

Lemma keeps_labels_sub : forall u (c : cfg A) name d n, (forall c d n, keeps_labels c (fst (fst (u c d n)))) ->
  keeps_labels c (fst (fst (update_sub u c name d n))).
Proof.
  intros u c name d n HU. unfold update_sub. destruct (dget (cfg_data c) name) as [[| |s]|] eqn:E; try apply keeps_labels_refl.
  pose proof (HU s d n) as K. destruct (u s d n) as [[s' n'] e]. cbn in *.
  apply keeps_labels_data. intros k s0 I. apply In_dset in I. destruct I as [X|I]; [|auto].
  injection X as -> ->. right. right. exists name, s. split; [apply dget_Some_In; exact E | exact K].
Qed.

Lemma keeps_labels_update : forall c kw n, keeps_labels c (fst (fst (update c kw n))).
Proof.
  intros. apply preserve_update.
  - apply keeps_labels_refl.
  - apply keeps_labels_trans.
  - apply keeps_labels_set.
  - apply keeps_labels_sub.
  - intros c0 name e v E. apply keeps_labels_data. intros k s I. apply In_dset in I. destruct I as [X|I]; [discriminate|auto].
Qed.

Lemma keeps_labels_clear : forall c n, keeps_labels c (fst (fst (clear c n))).
Proof.
  intros c n. unfold M_Config.clear. destruct (instantiate depth (cfg_class c) (cfg_root c) (cfg_mesh c) n) as [[c' n']|e] eqn:E.
  - apply instantiate_labelled in E. destruct E as (L & R & M & _). cbn. split; [exact R|]. split; [exact M|].
    intros _ s X. rewrite R, M. apply L. exact X.
  - apply keeps_labels_data. intros k s I. contradiction.
Qed.

Lemma keeps_labels_at : forall f, (forall c n, keeps_labels c (fst (fst (f c n)))) ->
  forall path c n, keeps_labels c (fst (fst (@at_path A f c path n))).
Proof.
  intros f Hf. induction path as [|p path IH]; intros c n; cbn [at_path]; [apply Hf|].
  destruct (dget (cfg_data c) p) as [[| |s]|] eqn:E; try apply keeps_labels_refl.
  specialize (IH s n). destruct (at_path f s path n) as [[s' n'] e]. cbn in *.
  apply keeps_labels_data. intros k s0 I. apply In_dset in I. destruct I as [X|I]; [|auto].
  injection X as -> ->. right. right. exists p, s. split; [apply dget_Some_In; exact E | exact IH].
Qed.

Lemma keeps_labels_step : forall c n o, keeps_labels c (fst (fst (step c n o))).
Proof.
  intros c n [path name v|path kw|path]; apply keeps_labels_at; intros.
  - apply keeps_labels_set. apply keeps_labels_update.
  - apply keeps_labels_update.
  - apply keeps_labels_clear.
Qed.

Lemma keeps_labels_run : forall ops c n, keeps_labels c (fst (run c n ops)).
Proof.
  induction ops as [|o ops IH]; intros c n; cbn; [apply keeps_labels_refl|].
  pose proof (keeps_labels_step c n o) as H. destruct (step c n o) as [[c1 n1] e].
  eapply keeps_labels_trans; [exact H | apply IH].
Qed.
End L.
