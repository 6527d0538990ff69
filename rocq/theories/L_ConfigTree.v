(** Basic lemmas on configuration trees: sizes, labels, fuel. *)
From Coq Require Import String List Bool Arith Lia.
From Verif Require Import Base Dict M_Config S_Config L_Stream.
Import ListNotations.
Local Open Scope string_scope.
Local Open Scope list_scope.

Section L.
Context {A : Type}.
Variable classes : dict (class A).
Variable registry : dict (dict string).
Variable depth : nat.
Notation set_option := (set_option classes registry depth).
Notation update_keys := (update_keys classes registry depth).
Notation update_key := (update_key classes registry depth).
Notation update_fuel := (update_fuel classes registry depth).
Notation update := (update classes registry depth).
Notation set_item := (set_item classes registry depth).

(** Size of a tree. *)
Fixpoint csize (c : cfg A) : nat :=
  match c with
  | Cfg _ _ _ data => S (fold_right plus 0 (map (fun ks : string * slot A => match ks with (_, SSub s) => csize s | _ => 0 end) data))
  end.

Lemma csize_sub : forall cls r m data k s, In (k, SSub s) data -> csize s < csize (@Cfg A cls r m data).
Proof.
  intros cls r m data k s I. cbn [csize].
  induction data as [|[k' s'] data IH]; [contradiction|]. destruct I as [E|I].
  - injection E as -> ->. cbn. lia.
  - specialize (IH I). cbn. lia.
Qed.

Lemma with_data_class : forall (c : cfg A) d, cfg_class (with_data c d) = cfg_class c.
Proof. destruct c; reflexivity. Qed.
Lemma with_data_root : forall (c : cfg A) d, cfg_root (with_data c d) = cfg_root c.
Proof. destruct c; reflexivity. Qed.
Lemma with_data_mesh : forall (c : cfg A) d, cfg_mesh (with_data c d) = cfg_mesh c.
Proof. destruct c; reflexivity. Qed.
Lemma with_data_data : forall (c : cfg A) d, cfg_data (with_data c d) = d.
Proof. destruct c; reflexivity. Qed.
Lemma with_data_same : forall (c : cfg A), with_data c (cfg_data c) = c.
Proof. destruct c; reflexivity. Qed.

Lemma dset_same : forall V (d : dict V) k v, dget d k = Some v -> dset d k v = d.
Proof.
  induction d as [|[k' v'] d IH]; intros k v H; cbn in *; [discriminate|].
  destruct (String.eqb k k') eqn:E.
  - injection H as ->. apply String.eqb_eq in E. subst. reflexivity.
  - f_equal. apply IH. exact H.
Qed.

(** ** Keyword dictionaries *)

Lemma key_eqb_eq : forall a b, key_eqb a b = true <-> a = b.
Proof.
  induction a as [|x a IH]; destruct b as [|y b]; cbn; split; intros H; try discriminate; auto.
  - apply andb_prop in H. destruct H as [H1 H2]. apply String.eqb_eq in H1. apply IH in H2. congruence.
  - injection H as -> ->. rewrite String.eqb_refl. apply IH. reflexivity.
Qed.
Lemma key_eqb_refl : forall a, key_eqb a a = true.
Proof. intros; apply key_eqb_eq; reflexivity. Qed.
Lemma key_eqb_neq : forall a b, a <> b -> key_eqb a b = false.
Proof. intros a b H. destruct (key_eqb a b) eqn:E; [apply key_eqb_eq in E; contradiction | reflexivity]. Qed.

Lemma kget_In : forall (kw : kwargs A) k v, kget kw k = Some v -> In (k, v) kw.
Proof.
  induction kw as [|[k' v'] kw IH]; intros k v H; cbn in *; [discriminate|].
  destruct (key_eqb k k') eqn:E.
  - apply key_eqb_eq in E. subst. left. congruence.
  - right. apply IH. exact H.
Qed.
Lemma kget_None : forall (kw : kwargs A) k, ~ In k (map fst kw) -> kget kw k = None.
Proof.
  induction kw as [|[k' v'] kw IH]; intros k H; cbn in *; [reflexivity|].
  rewrite key_eqb_neq by (intros ->; tauto). apply IH. tauto.
Qed.
Lemma In_kset : forall (kw : kwargs A) k v e, In e (kset kw k v) -> e = (k, v) \/ In e kw.
Proof.
  induction kw as [|[k' v'] kw IH]; intros k v e H; cbn in *; [destruct H as [<-|[]]; auto|].
  destruct (key_eqb k k') eqn:E.
  - apply key_eqb_eq in E. subst. destruct H as [<-|H]; auto.
  - destruct H as [<-|H]; auto. apply IH in H. tauto.
Qed.
Lemma In_kdel : forall (kw : kwargs A) k e, In e (kdel kw k) -> In e kw.
Proof.
  induction kw as [|[k' v'] kw IH]; intros k e H; cbn in *; [contradiction|].
  destruct (key_eqb k k'); [auto|]. destruct H as [<-|H]; auto. right. eapply IH; eassumption.
Qed.
Lemma kset_absent : forall (kw : kwargs A) k v, ~ In k (map fst kw) -> kset kw k v = kw ++ [(k, v)].
Proof.
  induction kw as [|[k' v'] kw IH]; intros k v H; cbn in *; [reflexivity|].
  rewrite key_eqb_neq by (intros ->; tauto). f_equal. apply IH. tauto.
Qed.

(** ** Depth *)

Definition bounded (D : nat) (kw : kwargs A) : Prop := forall k v, In (k, v) kw -> length k + vdepth v <= D.

Lemma kdepth_le : forall (kw : kwargs A) D, bounded D kw <-> kdepth kw <= D.
Proof.
  unfold kdepth, bounded. cbn. intros kw D.
  induction kw as [|[k v] kw IH]; cbn; [split; [lia | tauto]|]. split.
  - intros H. assert (length k + vdepth v <= D) by (apply H; auto).
    assert (fold_right Nat.max 0 (map (fun pv : list string * val A => let (p, w) := pv in length p + vdepth w) kw) <= D)
      by (apply IH; intros; apply H; auto). lia.
  - intros H k' v' [E|I]; [injection E as <- <-; lia | apply IH; [lia | exact I]].
Qed.

Lemma bounded_kdepth : forall kw, bounded (kdepth kw) kw.
Proof. intros. apply kdepth_le. lia. Qed.

Definition agree (D : nat) (u u' : cfg A -> kwargs A -> nat -> out A) : Prop :=
  forall c d n, kdepth d < D -> u c d n = u' c d n.

Lemma set_option_agree : forall D u u' c name v n, agree D u u' -> vdepth v < D -> set_option u c name v n = set_option u' c name v n.
Proof.
  intros D u u' c name v n G H. unfold M_Config.set_option.
  destruct (find_kind classes (cfg_class c) name) as [[]|]; try reflexivity;
    destruct v; try reflexivity; unfold update_sub;
    destruct (dget (cfg_data c) name) as [[]|]; try reflexivity; rewrite (G _ d n H); reflexivity.
Qed.

Lemma set_item_agree : forall D u u' t args v n, agree D u u' -> vdepth v < D -> set_item u t args v n = set_item u' t args v n.
Proof.
  intros D u u' t args v n G H. unfold M_Config.set_item. destruct t; try reflexivity.
  destruct args as [|a [|]]; try reflexivity. rewrite (set_option_agree D u u') by assumption. reflexivity.
Qed.

Lemma set_item_bounded : forall D u t args v n t' n', vdepth t <= D -> length args + vdepth v <= D ->
  set_item u t args v n = (Ok t', n') -> vdepth t' <= D.
Proof.
  intros D u t args v n t' n' Ht Hv E. unfold M_Config.set_item in E. destruct t; try discriminate.
  - injection E as <- _. apply (kdepth_le (kset d args v)). intros k w I. apply In_kset in I. destruct I as [E|I].
    + injection E as -> ->. exact Hv.
    + apply (kdepth_le d) in Ht. apply Ht. exact I.
  - destruct args as [|a [|]].
    + injection E as <- _. cbn. lia.
    + destruct (set_option u c a v n) as [[c2 n2] [e|]]; [discriminate|]. injection E as <- _. cbn. lia.
    + injection E as <- _. cbn. lia.
Qed.

Lemma update_key_agree : forall D u u' c kw key n, agree D u u' -> bounded D kw ->
  update_key u c kw key n = update_key u' c kw key n /\
  bounded D (snd (fst (fst (update_key u c kw key n)))).
Proof.
  intros D u u' c kw key n G B. unfold M_Config.update_key.
  destruct (kget kw key) as [v|] eqn:Ev; [|split; [reflexivity | exact B]].
  destruct key as [|name args]; [split; [reflexivity | exact B]|].
  assert (Bv : S (length args) + vdepth v <= D) by (apply (B (name :: args)); apply kget_In; exact Ev).
  assert (Bd : bounded D (kdel kw (name :: args))) by (intros k w I; apply B; eapply In_kdel; exact I).
  destruct (stored c name); [|split; [reflexivity | exact Bd]].
  destruct args as [|a args].
  - rewrite (set_option_agree D u u') by (assumption || lia). split; [reflexivity|].
    destruct (set_option u' c name v n) as [[c2 n2] e]. exact Bd.
  - destruct (kget kw [name]) as [t|] eqn:Et.
    + rewrite (set_item_agree D u u') by (assumption || cbn in Bv; lia). split; [reflexivity|].
      destruct (set_item u' t (a :: args) v n) as [[t'|e] n2] eqn:Ei; [|exact Bd].
      intros k w I. cbn in I. apply In_kset in I. destruct I as [E|I]; [|apply Bd; exact I].
      injection E as -> ->. assert (Bt : 1 + vdepth t <= D) by (apply (B [name]); apply kget_In; exact Et).
      assert (vdepth t' <= D - 1); [|cbn; lia].
      eapply (set_item_bounded (D - 1)); [| |exact Ei]; cbn in *; lia.
    + split; [reflexivity|]. intros k w I. cbn in I. apply In_kset in I. destruct I as [E|I]; [|apply Bd; exact I].
      injection E as -> ->. cbn in *. lia.
Qed.

Lemma update_keys_agree : forall D u u' keys c kw n, agree D u u' -> bounded D kw ->
  update_keys u c kw keys n = update_keys u' c kw keys n /\
  bounded D (snd (fst (fst (update_keys u c kw keys n)))).
Proof.
  intros D u u'. induction keys as [|key keys IH]; intros c kw n G B; cbn; [split; [reflexivity | exact B]|].
  destruct (update_key_agree D u u' c kw key n G B) as [E Bk]. rewrite <- E.
  destruct (update_key u c kw key n) as [[[c1 kw1] n1] [e|]]; cbn in Bk; [split; [reflexivity | exact Bk]|].
  apply IH; assumption.
Qed.

Lemma update_item_agree : forall D u u' c key v n, agree D u u' -> length key + vdepth v <= D ->
  update_item u c key v n = update_item u' c key v n.
Proof.
  intros D u u' c key v n G B. unfold update_item. destruct key as [|name [|]]; try reflexivity.
  destruct (dget (cfg_data c) name) as [[]|] eqn:E; destruct v; try reflexivity.
  unfold update_sub. rewrite E. rewrite (G c0 d n); [reflexivity|]. cbn in B. unfold kdepth. cbn. lia.
Qed.

Lemma update_items_agree : forall D u u' kw c n, agree D u u' -> bounded D kw ->
  update_items u c kw n = update_items u' c kw n.
Proof.
  intros D u u'. induction kw as [|[key v] kw IH]; intros c n G B; cbn; [reflexivity|].
  rewrite (update_item_agree D u u') by (assumption || (apply (B key); left; reflexivity)).
  destruct (update_item u' c key v n) as [[c1 n1] [e|]]; [reflexivity|].
  apply IH; [assumption|]. intros k w I. apply B. right. exact I.
Qed.

(** [update] does not depend on the bound once it exceeds the nesting depth. *)
Lemma update_fuel_enough : forall f f' c kw n, kdepth kw < f -> kdepth kw < f' -> update_fuel f c kw n = update_fuel f' c kw n.
Proof.
  induction f as [|f IH]; intros f' c kw n H H'; [lia|]. destruct f' as [|f']; [lia|].
  assert (G : agree (kdepth kw) (update_fuel f) (update_fuel f')) by (intros c' d n' Hd; apply IH; lia).
  cbn [M_Config.update_fuel].
  destruct (update_keys_agree (kdepth kw) _ _ (map fst kw) c kw n G (bounded_kdepth kw)) as [E B].
  rewrite <- E. destruct (update_keys (update_fuel f) c kw (map fst kw) n) as [[[c1 kw1] n1] [e|]]; [reflexivity|].
  cbn in B. apply (update_items_agree (kdepth kw)); assumption.
Qed.

Lemma update_is_fuel : forall f c kw n, kdepth kw < f -> update_fuel f c kw n = update c kw n.
Proof. intros. apply update_fuel_enough; unfold kdepth in *; lia. Qed.

(** [update] satisfies the recursive equation of the code. *)
Lemma update_eq : forall c kw n,
  update c kw n =
  match update_keys update c kw (map fst kw) n with
  | (c', kw', n', None) => update_items update c' kw' n'
  | (c', _, n', Some e) => (c', n', Some e)
  end.
Proof.
  intros c kw n. unfold M_Config.update at 1. cbn [M_Config.update_fuel].
  assert (G : agree (kdepth kw) (update_fuel (kdepth kw)) update) by (intros c' d n' Hd; apply update_is_fuel; exact Hd).
  destruct (update_keys_agree (kdepth kw) _ _ (map fst kw) c kw n G (bounded_kdepth kw)) as [E B].
  rewrite <- E. destruct (update_keys (update_fuel (kdepth kw)) c kw (map fst kw) n) as [[[c1 kw1] n1] [e|]]; [reflexivity|].
  cbn in B. apply (update_items_agree (kdepth kw)); assumption.
Qed.

(** ** Induction over [update]: a property of configurations kept by every step *)
Section Preserve.
(** [R c c']: what every statement guarantees between the configurations before and after. *)
Variable R : cfg A -> cfg A -> Prop.
Hypothesis R_refl : forall c, R c c.
Hypothesis R_trans : forall a b c, R a b -> R b c -> R a c.
Hypothesis R_set : forall u c name v n, (forall c d n, R c (fst (fst (u c d n)))) -> R c (fst (fst (set_option u c name v n))).
Hypothesis R_sub : forall u c name d n, (forall c d n, R c (fst (fst (u c d n)))) -> R c (fst (fst (update_sub u c name d n))).
Hypothesis R_plain : forall c name e v, dget (cfg_data c) name = Some (SPlain e) -> R c (with_data c (dset (cfg_data c) name (SPlain v))).

Lemma preserve_update_fuel : forall f c kw n, R c (fst (fst (update_fuel f c kw n))).
Proof.
  induction f as [|f IH]; intros c kw n; cbn [M_Config.update_fuel]; [apply R_refl|].
  assert (K : forall keys c kw n, R c (fst (fst (fst (update_keys (update_fuel f) c kw keys n))))).
  { induction keys as [|key keys IHk]; intros c0 kw0 n0; cbn; [apply R_refl|].
    assert (R c0 (fst (fst (fst (update_key (update_fuel f) c0 kw0 key n0))))).
    { unfold M_Config.update_key. destruct (kget kw0 key); [|apply R_refl]. destruct key as [|name args]; [apply R_refl|].
      destruct (stored c0 name); [|apply R_refl]. destruct args as [|a args].
      - pose proof (R_set (update_fuel f) c0 name v n0 IH) as H.
        destruct (set_option (update_fuel f) c0 name v n0) as [[c2 n2] e]. exact H.
      - destruct (kget kw0 [name]); [|apply R_refl].
        destruct (set_item (update_fuel f) v0 (a :: args) v n0) as [[] ?]; apply R_refl. }
    destruct (update_key (update_fuel f) c0 kw0 key n0) as [[[c1 kw1] n1] [e|]]; [exact H|].
    eapply R_trans; [exact H | apply IHk]. }
  specialize (K (map fst kw) c kw n).
  destruct (update_keys (update_fuel f) c kw (map fst kw) n) as [[[c1 kw1] n1] [e|]]; [exact K|].
  eapply R_trans; [exact K|]. clear K c kw n. revert c1 n1.
  induction kw1 as [|[key v] kw1 IHk]; intros c1 n1; cbn; [apply R_refl|].
  assert (R c1 (fst (fst (update_item (update_fuel f) c1 key v n1)))).
  { unfold update_item. destruct key as [|name [|]]; try apply R_refl.
    destruct (dget (cfg_data c1) name) as [[w|i w|s]|] eqn:E; try apply R_refl.
    - destruct w; try apply R_refl. destruct v; try apply R_refl. eapply R_plain. exact E.
    - destruct v; try apply R_refl. apply R_sub. exact IH. }
  destruct (update_item (update_fuel f) c1 key v n1) as [[c2 n2] [e|]]; [exact H|].
  eapply R_trans; [exact H | apply IHk].
Qed.

Lemma preserve_update : forall c kw n, R c (fst (fst (update c kw n))).
Proof. intros. apply preserve_update_fuel. Qed.
End Preserve.
End L.
