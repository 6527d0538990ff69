(** Lemmas on field containers. *)
From Coq Require Import String List Bool Arith Lia.
From Verif Require Import Base Dict L_Stream M_Fields S_Fields.
Import ListNotations.
Local Open Scope string_scope.
Local Open Scope list_scope.

Section F.
Context {V : Type}.
Variable symbols : dict string.
Hypothesis T : proper_table symbols.
Implicit Type d : dict V.

Lemma canon_spells : forall k n, dget symbols n = None -> (spells symbols k n <-> canon symbols k = n).
Proof.
  intros k n N. unfold spells, canon. destruct (dget symbols k) as [m|] eqn:E; split; intros H; subst; auto.
  - destruct H as [->|H]; congruence.
  - destruct H as [H|H]; [exact H | discriminate].
Qed.

Lemma canon_name : forall s n, dget symbols s = Some n -> canon symbols n = n.
Proof. intros s n H. unfold canon. rewrite (T _ _ H). reflexivity. Qed.

Lemma canon_idem : forall k, canon symbols (canon symbols k) = canon symbols k.
Proof.
  intros k. unfold canon. destruct (dget symbols k) as [m|] eqn:E; [rewrite (T _ _ E); reflexivity | rewrite E; reflexivity].
Qed.

Lemma set_item_get : forall d k v n, dget symbols n = None ->
  dget (fst (set_item symbols d k (Some v))) n = (if String.eqb n (canon symbols k) then Some v else dget d n).
Proof. intros. cbn. apply dget_dset. Qed.

Lemma set_item_leaves : forall d k w n, dget symbols n = None -> (w = None \/ ~ spells symbols k n) ->
  dget (fst (set_item symbols d k w)) n = dget d n.
Proof.
  intros d k w n N H. destruct w as [w|]; [|reflexivity]. rewrite set_item_get by exact N.
  destruct (String.eqb_spec n (canon symbols k)) as [E|E]; [|reflexivity].
  destruct H as [H|H]; [discriminate|]. exfalso. apply H, canon_spells; congruence.
Qed.

Lemma update_leaves : forall l d n, dget symbols n = None -> (forall k w, In (k, Some w) l -> ~ spells symbols k n) ->
  dget (fst (update symbols d l)) n = dget d n.
Proof.
  induction l as [|[k w] l IH]; intros d n N H; [reflexivity|]. cbn [update].
  pose proof (set_item_leaves d k w n N) as S. destruct w as [w|]; [|reflexivity]. cbn in *.
  rewrite IH; [apply S; right; apply (H k w); left; reflexivity | exact N | intros k' w' I; apply (H k' w'); right; exact I].
Qed.

Lemma step_leaves : forall o d n, NoDup (dkeys d) -> dget symbols n = None -> leaves symbols o n ->
  dget (fstep symbols symbols d o) n = dget d n.
Proof.
  intros o d n ND N H. destruct o as [k w|s w|k|s|l]; unfold fstep.
  - apply set_item_leaves; [exact N|]. destruct w; [right; exact H | left; reflexivity].
  - unfold set_attr. destruct (dget symbols s) as [m|] eqn:E; [|reflexivity]. destruct w as [w|]; [|reflexivity].
    apply set_item_leaves; [exact N|]. right. intros S. cbn in H. rewrite E in H. apply canon_spells in S; [|exact N].
    rewrite (canon_name _ _ E) in S. congruence.
  - unfold del_item. cbn in H. destruct (dget d k); [|reflexivity]. apply dget_ddel_other. exact H.
  - unfold del_attr. cbn in H. destruct (dget symbols s) as [m|] eqn:E; [|reflexivity].
    unfold del_item. destruct (dget d m); [|reflexivity]. apply dget_ddel_other. congruence.
  - apply update_leaves; [exact N | exact H].
Qed.

Lemma update_writes : forall l1 d k v l2 n, dget symbols n = None ->
  (forall k' w, In (k', w) l1 -> w <> None) -> (forall k' w, In (k', Some w) l2 -> ~ spells symbols k' n) ->
  spells symbols k n -> dget (fst (update symbols d (l1 ++ (k, Some v) :: l2))) n = Some v.
Proof.
  induction l1 as [|[k' w] l1 IH]; intros d k v l2 n N H1 H2 S.
  - cbn [app update set_item]. rewrite update_leaves by assumption. apply canon_spells in S; [|exact N]. rewrite S. apply dget_dset_same.
  - cbn [app update]. destruct w as [w|]; [|exfalso; apply (H1 k' None); [left|]; reflexivity].
    cbn [set_item]. apply IH; auto. intros k2 w2 I. apply (H1 k2 w2). right. exact I.
Qed.

Lemma step_writes : forall o d n v, dget symbols n = None -> writes symbols o n v ->
  dget (fstep symbols symbols d o) n = Some v.
Proof.
  intros o d n v N H. destruct o as [k w|s w|k|s|l]; unfold fstep; cbn [writes] in H; try contradiction.
  - destruct w as [w|]; [|contradiction]. destruct H as [H ->]. apply canon_spells in H; [|exact N].
    cbn. rewrite H. apply dget_dset_same.
  - destruct w as [w|]; [|contradiction]. destruct H as [H ->]. unfold set_attr. rewrite H. cbn.
    rewrite (canon_name _ _ H). apply dget_dset_same.
  - destruct H as (l1 & k & l2 & -> & S & H1 & H2). apply update_writes; assumption.
Qed.

Lemma step_deletes : forall o d n, NoDup (dkeys d) -> deletes symbols o n -> dget (fstep symbols symbols d o) n = None.
Proof.
  intros o d n ND H. destruct o as [k w|s w|k|s|l]; cbn in H; try contradiction; unfold fstep.
  - subst. unfold del_item. destruct (dget d n) eqn:E; [apply dget_ddel_same, ND | exact E].
  - unfold del_attr. rewrite H. unfold del_item. destruct (dget d n) eqn:E; [apply dget_ddel_same, ND | exact E].
Qed.

Definition tidy d : Prop := NoDup (dkeys d) /\ forall k, In k (dkeys d) -> dget symbols k = None.

Lemma tidy_set_item : forall d k w, tidy d -> tidy (fst (set_item symbols d k w)).
Proof.
  intros d k w [N S]. destruct w as [w|]; [|split; assumption]. cbn. split; [apply NoDup_dkeys_dset, N|].
  intros x I. apply In_dkeys_dset in I. destruct I as [->|I]; [|apply S, I].
  unfold canon. destruct (dget symbols k) as [m|] eqn:E; [apply (T _ _ E) | exact E].
Qed.

Lemma tidy_update : forall l d, tidy d -> tidy (fst (update symbols d l)).
Proof.
  induction l as [|[k w] l IH]; intros d H; [exact H|]. cbn [update].
  pose proof (tidy_set_item d k w H) as H'. destruct (set_item symbols d k w) as [d' [e|]]; [exact H' | apply IH, H'].
Qed.

Lemma tidy_del : forall d k, tidy d -> tidy (fst (del_item d k)).
Proof.
  intros d k [N S]. unfold del_item. destruct (dget d k); [|split; assumption]. split; [apply NoDup_ddel, N|].
  intros x I. apply S. eapply In_dkeys_ddel. exact I.
Qed.

Lemma tidy_step : forall o d, tidy d -> tidy (fstep symbols symbols d o).
Proof.
  intros o d H. destruct o as [k w|s w|k|s|l]; unfold fstep.
  - apply tidy_set_item, H.
  - unfold set_attr. destruct (dget symbols s); [|exact H]. destruct w; [|exact H]. apply tidy_set_item, H.
  - apply tidy_del, H.
  - unfold del_attr. destruct (dget symbols s); [apply tidy_del, H | exact H].
  - apply tidy_update, H.
Qed.

Lemma tidy_run : forall ops d, tidy d -> tidy (frun symbols symbols d ops).
Proof. induction ops as [|o ops IH]; intros d H; [exact H|]. apply (IH (fstep symbols symbols d o)), tidy_step, H. Qed.

Lemma tidy_empty : tidy [].
Proof. split; [constructor | intros k []]. Qed.

Lemma run_leaves : forall ops d n, tidy d -> dget symbols n = None -> (forall o, In o ops -> leaves symbols o n) ->
  dget (frun symbols symbols d ops) n = dget d n.
Proof.
  induction ops as [|o ops IH]; intros d n H N L; [reflexivity|]. cbn [frun fold_left].
  fold (frun symbols symbols (fstep symbols symbols d o) ops). rewrite IH; [|apply tidy_step, H | exact N | intros o' I; apply L; right; exact I].
  apply step_leaves; [apply H | exact N | apply L; left; reflexivity].
Qed.

(** * Selection *)

Lemma fold_dset_get : forall (B : Type) (l d : dict B) k, NoDup (dkeys l) ->
  dget (fold_left (fun (d : dict B) kv => dset d (fst kv) (snd kv)) l d) k = match dget l k with Some v => Some v | None => dget d k end.
Proof.
  intros B l. induction l as [|[k0 v0] l IH]; intros d k N; [reflexivity|]. cbn [fold_left fst snd].
  inversion N as [|a b N1 N2]; subst. rewrite IH by exact N2. cbn [dget]. rewrite dget_dset.
  destruct (String.eqb_spec k k0) as [->|D]; [|reflexivity].
  destruct (dget l k0) as [w|] eqn:E; [|reflexivity]. exfalso. apply N1. eapply dget_In_keys. exact E.
Qed.

Lemma NoDup_fold_dset : forall (B : Type) (l d : dict B), NoDup (dkeys d) ->
  NoDup (dkeys (fold_left (fun (d : dict B) kv => dset d (fst kv) (snd kv)) l d)).
Proof. intros B l. induction l as [|[k v] l IH]; intros d N; [exact N|]. cbn. apply IH, NoDup_dkeys_dset, N. Qed.

Notation sel u := (select_one symbols u).

Lemma select_fields : forall (u : dict V) l acc n,
  (forall k, In k (dkeys u) -> dget symbols k = None) ->
  dget (fst (fold_left (sel u) l acc)) n =
  (if existsb (fun sv => snd sv && String.eqb (canon symbols (fst sv)) n) l
   then match dget u n with Some x => Some x | None => dget (fst acc) n end else dget (fst acc) n).
Proof.
  intros u l. induction l as [|[s b] l IH]; intros acc n K; [reflexivity|].
  cbn [fold_left existsb fst snd]. rewrite IH by exact K. clear IH.
  destruct acc as [fs q]. unfold select_one. destruct b; [|reflexivity]. cbn [andb].
  destruct (dget u (canon symbols s)) as [x|] eqn:E.
  - cbn [fst set_item]. rewrite canon_idem. rewrite dget_dset.
    destruct (String.eqb_spec (canon symbols s) n) as [<-|D].
    + rewrite String.eqb_refl, E. cbn [orb]. destruct (existsb _ l); reflexivity.
    + destruct (String.eqb_spec n (canon symbols s)); [congruence|]. reflexivity.
  - cbn [fst]. destruct (String.eqb_spec (canon symbols s) n) as [<-|D]; [|reflexivity].
    rewrite E. cbn [orb]. destruct (existsb _ l); reflexivity.
Qed.

Lemma NoDup_select : forall (u : dict V) l acc, NoDup (dkeys (fst acc)) -> NoDup (dkeys (fst (fold_left (sel u) l acc))).
Proof.
  intros u l. induction l as [|[s b] l IH]; intros acc N; [exact N|]. cbn [fold_left]. apply IH.
  destruct acc as [fs q]. unfold select_one. destruct b; [|exact N]. destruct (dget u (canon symbols s)); [|exact N].
  cbn. apply NoDup_dkeys_dset, N.
Qed.

(** What is left of the selection. *)
Lemma select_rest_sub : forall (u : dict V) l acc k v, NoDup (dkeys (snd acc)) ->
  dget (snd (fold_left (sel u) l acc)) k = Some v -> dget (snd acc) k = Some v.
Proof.
  intros u l. induction l as [|[s b] l IH]; intros acc k v N H; [exact H|]. cbn [fold_left] in H.
  destruct acc as [fs q]. unfold select_one in H at 2. destruct b; [|apply IH in H; assumption].
  destruct (dget u (canon symbols s)) as [x|]; [|apply IH in H; assumption]. cbn [snd] in *.
  assert (P : forall a, dget (ddel q a) k = Some v -> dget q k = Some v).
  { intros a G. destruct (String.eqb_spec a k) as [->|D]; [rewrite dget_ddel_same in G by exact N; discriminate|].
    rewrite dget_ddel_other in G by exact D. exact G. }
  destruct (dget q s); [|destruct (dget q (canon symbols s))]; apply IH in H; cbn [snd] in *;
    try (apply NoDup_ddel, N); eauto.
Qed.

(** Provided entries are removed. *)
Lemma select_rest_provided : forall (u : dict V) l acc s, NoDup (dkeys (snd acc)) -> In (s, true) l ->
  dget u (canon symbols s) <> None -> dget (snd (fold_left (sel u) l acc)) s = None.
Proof.
  intros u l. induction l as [|[s0 b] l IH]; intros acc s N I P; [contradiction|].
  destruct I as [E|I].
  - injection E as -> ->. cbn [fold_left]. destruct acc as [fs q]. unfold select_one at 2. cbn [snd] in N.
    destruct (dget u (canon symbols s)) as [x|]; [|congruence].
    destruct (dget (snd (fold_left (sel u) l _)) s) as [w|] eqn:G; [|reflexivity]. exfalso.
    apply select_rest_sub in G; cbn [snd] in *.
    + destruct (dget q s) eqn:Q; [rewrite dget_ddel_same in G by exact N; discriminate|].
      destruct (dget q (canon symbols s)); [|congruence].
      destruct (String.eqb_spec (canon symbols s) s) as [e|D]; [rewrite e, dget_ddel_same in G by exact N; discriminate|].
      rewrite dget_ddel_other in G by exact D. congruence.
    + destruct (dget q s); [apply NoDup_ddel, N|]. destruct (dget q (canon symbols s)); [apply NoDup_ddel, N | exact N].
  - cbn [fold_left]. apply IH; [|exact I | exact P]. destruct acc as [fs q]. unfold select_one. cbn [snd] in N.
    destruct b; [|exact N]. destruct (dget u (canon symbols s0)); [|exact N]. cbn [snd].
    destruct (dget q s0); [apply NoDup_ddel, N|]. destruct (dget q (canon symbols s0)); [apply NoDup_ddel, N | exact N].
Qed.

(** Entries that cannot be provided stay. *)
Lemma select_rest_missing : forall (u : dict V) l acc s, (forall k, In k (dkeys u) -> dget symbols k = None) ->
  dget u (canon symbols s) = None -> dget (snd (fold_left (sel u) l acc)) s = dget (snd acc) s.
Proof.
  intros u l. induction l as [|[s0 b] l IH]; intros acc s K P; [reflexivity|]. cbn [fold_left].
  rewrite IH by assumption. destruct acc as [fs q]. unfold select_one. destruct b; [|reflexivity].
  destruct (dget u (canon symbols s0)) as [x|] eqn:E; [|reflexivity]. cbn [snd].
  destruct (dget q s0) eqn:Q.
  - apply dget_ddel_other. intros ->. congruence.
  - destruct (dget q (canon symbols s0)) eqn:Q2; [|reflexivity]. apply dget_ddel_other. intros E2.
    rewrite <- E2, canon_idem in P. congruence.
Qed.
End F.

(** Dimensional values. *)
Lemma dimensionful_get : forall V symbols times (ref u : dict V) n,
  NoDup (dkeys u) -> (forall k, In k (dkeys u) -> dget symbols k = None) ->
  dget (dimensionful_state symbols times ref u) n =
  match dget u n, dget ref n with Some v, Some r => Some (times v r) | _, _ => None end.
Proof.
  intros V symbols times ref u n N K. unfold dimensionful_state.
  set (f := fun _ => _). 
  assert (G : forall l d, NoDup (dkeys l) -> (forall k, In k (dkeys l) -> dget symbols k = None) ->
    dget (fold_left f l d) n = match dget l n, dget ref n with Some v, Some r => Some (times v r) | _, _ => dget d n end).
  { clear N K. induction l as [|[k v] l IH]; intros d N K; [reflexivity|]. cbn [fold_left].
    inversion N as [|a b N1 N2]; subst.
    rewrite IH; [|exact N2 | intros k' I; apply K; right; exact I]. cbn [dget]. unfold f. cbn [fst snd].
    assert (C : canon symbols k = k) by (unfold canon; rewrite K; [reflexivity | left; reflexivity]).
    destruct (String.eqb_spec n k) as [->|D].
    - apply dget_None_not_In in N1. rewrite N1. destruct (dget ref k); [|reflexivity].
      cbn. rewrite C. apply dget_dset_same.
    - destruct (dget ref k) as [r|]; [|reflexivity]. cbn. rewrite C. rewrite dget_dset_other by congruence. reflexivity. }
  rewrite G by assumption. cbn. destruct (dget u n), (dget ref n); reflexivity.
Qed.
