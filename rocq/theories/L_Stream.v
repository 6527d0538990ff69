(** Lemmas on stream switches and log handlers. *)
From Coq Require Import ZArith String List Bool Arith Lia.
From Verif Require Import Base Dict M_Stream S_Stream.
Import ListNotations.
Local Open Scope nat_scope.
Local Open Scope list_scope.

(** * Switches *)

Lemma dget_ddel_same : forall V (d : dict V) k, NoDup (dkeys d) -> dget (ddel d k) k = None.
Proof.
  intros V d k N. induction d as [|[k0 v0] d IH]; [reflexivity|]. cbn in *. inversion N as [|a b N1 N2]; subst.
  destruct (String.eqb_spec k k0) as [->|D]; [apply dget_None_not_In; exact N1|].
  cbn. destruct (String.eqb_spec k k0); [contradiction|]. apply IH, N2.
Qed.

Lemma dget_ddel_other : forall V (d : dict V) k k', k <> k' -> dget (ddel d k) k' = dget d k'.
Proof.
  intros V d k k' D. induction d as [|[k0 v0] d IH]; [reflexivity|]. cbn.
  destruct (String.eqb_spec k k0) as [->|D1].
  - destruct (String.eqb_spec k' k0); [congruence|reflexivity].
  - cbn. destruct (String.eqb_spec k' k0); [reflexivity | exact IH].
Qed.

Lemma In_dkeys_ddel : forall V (d : dict V) k k', In k' (dkeys (ddel d k)) -> In k' (dkeys d).
Proof.
  intros V d k k'. induction d as [|[k0 v0] d IH]; [tauto|]. cbn.
  destruct (String.eqb_spec k k0); cbn; intros H; [right; exact H|]. destruct H; [left|right; apply IH]; assumption.
Qed.

Lemma NoDup_ddel : forall V (d : dict V) k, NoDup (dkeys d) -> NoDup (dkeys (ddel d k)).
Proof.
  intros V d k N. induction d as [|[k0 v0] d IH]; [exact N|]. cbn in *. inversion N as [|a b N1 N2]; subst.
  destruct (String.eqb_spec k k0); [exact N2|]. cbn. constructor; [|apply IH, N2].
  intros H. apply N1. eapply In_dkeys_ddel. exact H.
Qed.

(** Rejected values. *)
Lemma switch_rejected : forall name v s, accepted name v = None -> switch_set name v s = (s, Some ValueError).
Proof.
  intros name v s H. destruct v as [b|x|]; cbn in *; try discriminate; try reflexivity.
  unfold switch_set. destruct (String.eqb x name); [discriminate | reflexivity].
Qed.

(** Accepted values. *)
Lemma switch_accepted : forall name v b s, accepted name v = Some b -> NoDup (dkeys (sw_data s)) ->
  exists s', switch_set name v s = (s', None) /\ NoDup (dkeys (sw_data s')) /\
    (switch_get name s' = if b then Some (sw_next s) else None) /\
    (forall n, n <> name -> switch_get n s' = switch_get n s) /\
    (sw_next s' = if b then S (sw_next s) else sw_next s).
Proof.
  intros name v b s H N. assert (E : switch_set name v s = switch_set name (SBool b) s).
  { destruct v as [c|x|]; cbn in H; try discriminate; [congruence|].
    unfold switch_set. destruct (String.eqb x name); [|discriminate]. injection H as <-. reflexivity. }
  rewrite E. unfold switch_set, switch_get. destruct b.
  - eexists. split; [reflexivity|]. cbn. repeat split; [apply NoDup_dkeys_dset, N | apply dget_dset_same |].
    intros n D. apply dget_dset_other. congruence.
  - destruct (dget (sw_data s) name) as [m|] eqn:G.
    + eexists. split; [reflexivity|]. cbn. repeat split; [apply NoDup_ddel, N | apply dget_ddel_same, N |].
      intros n D. apply dget_ddel_other. congruence.
    + exists s. repeat split; assumption.
Qed.

Definition is_on (name : string) (s : switches) : bool := match switch_get name s with Some _ => true | None => false end.

Lemma switch_step_position : forall a s name, NoDup (dkeys (sw_data s)) ->
  NoDup (dkeys (sw_data (fst (switch_set (fst a) (snd a) s)))) /\
  is_on name (fst (switch_set (fst a) (snd a) s)) =
  (if String.eqb (fst a) name then match accepted name (snd a) with Some b => b | None => is_on name s end else is_on name s).
Proof.
  intros [n v] s name N. cbn [fst snd]. destruct (accepted n v) as [b|] eqn:A.
  - destruct (switch_accepted n v b s A N) as (s' & E & N' & G & O & _). rewrite E. cbn [fst]. split; [exact N'|].
    unfold is_on. destruct (String.eqb_spec n name) as [->|D].
    + rewrite A, G. destruct b; reflexivity.
    + rewrite O by congruence. reflexivity.
  - rewrite (switch_rejected n v s A). cbn [fst]. split; [exact N|].
    destruct (String.eqb_spec n name) as [->|D]; [rewrite A|]; reflexivity.
Qed.

Lemma switch_run_app : forall l1 l2 s, switch_run (l1 ++ l2) s = switch_run l2 (switch_run l1 s).
Proof. intros. apply fold_left_app. Qed.

Lemma switch_history : forall l s name, NoDup (dkeys (sw_data s)) ->
  NoDup (dkeys (sw_data (switch_run l s))) /\
  is_on name (switch_run l s) = position name (is_on name s) (rev l).
Proof.
  induction l as [|a l IH] using rev_ind; intros s name N; [split; [exact N | reflexivity]|].
  rewrite switch_run_app, rev_app_distr. destruct (IH s name N) as [N1 P]. cbn [rev app position].
  destruct (switch_step_position a (switch_run l s) name N1) as [N2 Q].
  change (switch_run [a] (switch_run l s)) with (fst (switch_set (fst a) (snd a) (switch_run l s))).
  split; [exact N2|]. rewrite Q, P. destruct a as [n v]. reflexivity.
Qed.

(** * Log handlers *)

Definition fl (i : option nat) (k : log_kind) (l : list handler) : list handler :=
  filter (fun h => is_owner i h && is_kind k h) l.
Arguments fl : simpl never.

Lemma set_nth_length : forall A (l : list A) i x, length (set_nth l i x) = length l.
Proof. induction l; destruct i; cbn; intros; congruence. Qed.

Lemma nth_set_same : forall A (l : list A) i x y, nth_error l i = Some y -> nth_error (set_nth l i x) i = Some x.
Proof. induction l; destruct i; cbn; intros; try discriminate; [reflexivity | eauto]. Qed.

Lemma nth_set_other : forall A (l : list A) i j x, i <> j -> nth_error (set_nth l i x) j = nth_error l j.
Proof. induction l; destruct i, j; cbn; intros; try reflexivity; try lia. apply IHl. lia. Qed.

Lemma set_nth_app : forall A (l : list A) y x, set_nth (l ++ [y]) (length l) x = l ++ [x].
Proof. induction l; cbn; intros; [reflexivity | rewrite IHl; reflexivity]. Qed.

Lemma filter_remove_other : forall (P : handler -> bool) t l, P t = false -> (forall x, In x l -> h_id x = h_id t -> x = t) ->
  filter P (remove_handler t l) = filter P l.
Proof.
  intros P t l H U. induction l as [|x l IH]; [reflexivity|]. cbn [remove_handler].
  destruct (Nat.eqb_spec (h_id x) (h_id t)) as [E|E].
  - rewrite (U x (or_introl eq_refl) E). cbn. rewrite H. reflexivity.
  - cbn. rewrite IH; [reflexivity|]. intros y I. apply U. right. exact I.
Qed.

Lemma filter_remove_self : forall (P : handler -> bool) t l, P t = true -> (forall x, In x l -> h_id x = h_id t -> x = t) ->
  filter P (remove_handler t l) = remove_handler t (filter P l).
Proof.
  intros P t l H U. induction l as [|x l IH]; [reflexivity|]. cbn [remove_handler filter].
  destruct (Nat.eqb_spec (h_id x) (h_id t)) as [E|E].
  - rewrite (U x (or_introl eq_refl) E). rewrite H. cbn. rewrite Nat.eqb_refl. reflexivity.
  - cbn. assert (IH' := IH (fun y I => U y (or_intror I))). destruct (P x); cbn; [|exact IH'].
    destruct (Nat.eqb_spec (h_id x) (h_id t)); [contradiction|]. rewrite IH'. reflexivity.
Qed.

Lemma In_remove : forall t l x, In x (remove_handler t l) -> In x l.
Proof.
  intros t l x. induction l as [|y l IH]; [tauto|]. cbn. destruct (h_id y =? h_id t); cbn; tauto.
Qed.

Lemma In_remove_attr : forall o l x, In x (remove_attr o l) -> In x l.
Proof. intros [t|] l x; [apply In_remove | tauto]. Qed.

Lemma add_fresh : forall h l, (forall x, In x l -> h_id x < h_id h) -> add_handler h l = l ++ [h].
Proof.
  intros h l H. unfold add_handler. destruct (existsb _ l) eqn:E; [|reflexivity].
  apply existsb_exists in E. destruct E as [x [I E]]. apply Nat.eqb_eq in E. specialize (H x I). lia.
Qed.

Definition owned (w : log_world) (i : nat) (k : log_kind) (o : option handler) : Prop :=
  forall t, o = Some t -> h_owner t = Some i /\ h_kind t = k /\ h_id t < w_next w /\
    forall x, In x (w_handlers w) -> h_id x = h_id t -> x = t.

Definition at_most (w : log_world) (i : nat) (k : log_kind) (o : option handler) : Prop :=
  fl (Some i) k (w_handlers w) = [] \/ exists t, o = Some t /\ fl (Some i) k (w_handlers w) = [t].

Definition flag (w : log_world) (i : nat) (k : log_kind) (b : bool) : Prop :=
  registered (Some i) k (w_handlers w) = if b then 1 else 0.

Record stream_inv (w : log_world) (h : list log_op) (i : nat) (s : log_stream) : Prop := {
  si_alive : alive i h = true;
  si_t_owned : owned w i Terminal (l_terminal s);
  si_f_owned : owned w i File (l_file s);
  si_t_most : at_most w i Terminal (l_terminal s);
  si_f_most : at_most w i File (l_file s);
  si_t : flag w i Terminal (last_terminal i h);
  si_f : files_open h -> flag w i File (last_file i h);
  si_tt : l_to_terminal s = last_terminal i h;
  si_ff : files_open h -> l_to_file s = last_file i h }.

Record log_inv (w : log_world) (h : list log_op) : Prop := {
  li_created : length (w_streams w) = created h;
  li_ids : forall x, In x (w_handlers w) -> h_id x < w_next w;
  li_live : forall i s, nth_error (w_streams w) i = Some (Some s) -> stream_inv w h i s;
  li_dead : forall i, (forall s, nth_error (w_streams w) i <> Some (Some s)) ->
    alive i h = false /\ forall k, fl (Some i) k (w_handlers w) = [];
  li_foreign : forall k, registered None k (w_handlers w) = foreign k h;
  li_level : w_level w = last_level h }.

(** A handler owned by [i] does not count for other owners or kinds. *)
Lemma not_counted : forall t i k j k', h_owner t = Some i -> h_kind t = k -> (j <> Some i \/ k <> k') ->
  is_owner j t && is_kind k' t = false.
Proof.
  intros t i k j k' O K D. unfold is_owner, is_kind. rewrite O, K. destruct j as [j|]; [|reflexivity].
  destruct (Nat.eqb_spec j i) as [->|N]; [|reflexivity]. destruct D as [D|D]; [congruence|].
  destruct k, k'; try reflexivity; congruence.
Qed.

Lemma counted : forall t i k, h_owner t = Some i -> h_kind t = k -> is_owner (Some i) t && is_kind k t = true.
Proof. intros t i k O K. unfold is_owner, is_kind. rewrite O, K, Nat.eqb_refl. destruct k; reflexivity. Qed.

Lemma fl_one_other : forall t i k j k', h_owner t = Some i -> h_kind t = k -> (j <> Some i \/ k <> k') -> fl j k' [t] = [].
Proof. intros t i k j k' O K D. unfold fl. cbn [filter]. rewrite (not_counted t i k j k' O K D). reflexivity. Qed.

Lemma fl_one_self : forall t i k, h_owner t = Some i -> h_kind t = k -> fl (Some i) k [t] = [t].
Proof. intros t i k O K. unfold fl. cbn [filter]. rewrite (counted t i k O K). reflexivity. Qed.

Lemma fl_remove_other : forall w i k o j k', owned w i k o -> (j <> Some i \/ k <> k') ->
  fl j k' (remove_attr o (w_handlers w)) = fl j k' (w_handlers w).
Proof.
  intros w i k [t|] j k' O D; [|reflexivity]. destruct (O t eq_refl) as (H1 & H2 & _ & H3).
  apply filter_remove_other; [eapply not_counted; eassumption | exact H3].
Qed.

Lemma fl_remove_self : forall w i k o, owned w i k o -> at_most w i k o -> fl (Some i) k (remove_attr o (w_handlers w)) = [].
Proof.
  intros w i k [t|] O A.
  - destruct (O t eq_refl) as (H1 & H2 & _ & H3). unfold fl, remove_attr.
    rewrite filter_remove_self; [|apply counted; assumption | exact H3].
    destruct A as [A|[t' [E A]]]; unfold fl in A; rewrite A; [reflexivity|]. injection E as <-. cbn. rewrite Nat.eqb_refl. reflexivity.
  - cbn. destruct A as [A|[t' [E A]]]; [exact A | discriminate].
Qed.

Lemma registered_fl : forall i k l, registered i k l = length (fl i k l).
Proof. reflexivity. Qed.

Lemma fl_app : forall i k l1 l2, fl i k (l1 ++ l2) = fl i k l1 ++ fl i k l2.
Proof. intros. apply filter_app. Qed.

Lemma owned_shrink : forall w w' i k o, owned w i k o -> w_next w <= w_next w' ->
  (forall x, In x (w_handlers w') -> In x (w_handlers w) \/ h_id x >= w_next w) -> owned w' i k o.
Proof.
  intros w w' i k o O N S t E. destruct (O t E) as (H1 & H2 & H3 & H4). repeat split; try assumption; try lia.
  intros x I X. destruct (S x I) as [J|J]; [apply H4; assumption | lia].
Qed.

(** What a step may do to a stream it does not touch. *)
Lemma stream_inv_keep : forall w w' h o i s, stream_inv w h i s -> w_next w <= w_next w' ->
  (forall x, In x (w_handlers w') -> In x (w_handlers w) \/ h_id x >= w_next w) ->
  (forall k, fl (Some i) k (w_handlers w') = fl (Some i) k (w_handlers w)) ->
  alive i (o :: h) = alive i h -> last_terminal i (o :: h) = last_terminal i h -> last_file i (o :: h) = last_file i h ->
  stream_inv w' (o :: h) i s.
Proof.
  intros w w' h o i s [A OT OF MT MF FT FF TT TF] N S K EA ET EF.
  assert (FO : files_open (o :: h) -> files_open h) by (intros F j I; apply (F j); right; exact I).
  constructor.
  - congruence.
  - eapply owned_shrink; eassumption.
  - eapply owned_shrink; eassumption.
  - unfold at_most in *. rewrite K. exact MT.
  - unfold at_most in *. rewrite K. exact MF.
  - unfold flag in *. rewrite registered_fl, K, ET. exact FT.
  - intros F. unfold flag in *. rewrite registered_fl, K, EF. apply FF, FO, F.
  - congruence.
  - intros F. rewrite EF. apply TF, FO, F.
Qed.

Lemma alive_created : forall i h, alive i h = true -> i < created h.
Proof. intros i h H. apply andb_true_iff in H. apply Nat.ltb_lt. apply H. Qed.

Lemma deleted_created : forall h i, deleted i h = true -> i < created h.
Proof.
  induction h as [|o h IH]; intros i H; [discriminate|].
  destruct o; cbn in *; try (apply IH in H; lia).
  apply orb_true_iff in H. destruct H as [H|H]; [|apply IH, H]. apply andb_true_iff in H. apply Nat.ltb_lt, H.
Qed.

Lemma eqb_neq : forall i j, i <> j -> (i =? j) = false.
Proof. intros. apply Nat.eqb_neq. assumption. Qed.

(** Steps on a live stream. *)
Section Step.
  Context {w : log_world} {h : list log_op} (I : log_inv w h).

  Lemma inv_live : forall i s, nth_error (w_streams w) i = Some (Some s) -> alive i h = true.
  Proof. intros i s E. apply (si_alive _ _ _ _ (li_live _ _ I i s E)). Qed.

  Lemma dead_live : forall i s j, nth_error (w_streams w) i = Some (Some s) ->
    (forall s', nth_error (set_nth (w_streams w) i (Some s)) j <> Some (Some s')) -> j <> i.
  Proof. intros i s j E H ->. apply (H s). eapply nth_set_same. exact E. Qed.
End Step.

Lemma level_meaning_spec : forall v,
  existsb (String.eqb (as_level v)) known_levels = true /\ level_meaning v = Some (as_level v) \/
  existsb (String.eqb (as_level v)) known_levels = false /\ level_meaning v = None.
Proof.
  intros [z|s].
  - unfold as_level, level_name_of.
    destruct (Z.eqb_spec z 50) as [->|]; [left; split; reflexivity|].
    destruct (Z.eqb_spec z 40) as [->|]; [left; split; reflexivity|].
    destruct (Z.eqb_spec z 30) as [->|]; [left; split; reflexivity|].
    destruct (Z.eqb_spec z 20) as [->|]; [left; split; reflexivity|].
    destruct (Z.eqb_spec z 10) as [->|]; [left; split; reflexivity|].
    destruct (Z.eqb_spec z 0) as [->|]; [left; split; reflexivity|].
    right. split; [reflexivity|]. unfold level_meaning.
    destruct z as [|p|p]; [contradiction| |reflexivity].
    do 6 (try destruct p as [p|p|]); try reflexivity; contradiction.
  - unfold as_level, level_meaning. fold known_levels.
    destruct (in_dec string_dec s known_levels) as [H|H].
    + left. split; [|reflexivity]. apply existsb_exists. exists s. split; [exact H | apply String.eqb_refl].
    + right. split; [|reflexivity]. destruct (existsb (String.eqb s) known_levels) eqn:E; [|reflexivity].
      exfalso. apply existsb_exists in E. destruct E as [x [X1 X2]]. apply String.eqb_eq in X2. subst. contradiction.
Qed.

(** A dead stream stays so. *)
Lemma dead_keep : forall w hs' h o i j s s', log_inv w h -> nth_error (w_streams w) i = Some (Some s) ->
  (forall j k, j <> i -> fl (Some j) k hs' = fl (Some j) k (w_handlers w)) ->
  (forall j, alive j (o :: h) = alive j h) ->
  (forall t, nth_error (set_nth (w_streams w) i (Some s')) j <> Some (Some t)) ->
  alive j (o :: h) = false /\ forall k, fl (Some j) k hs' = [].
Proof.
  intros w hs' h o i j s s' I E F A D.
  assert (j <> i). { intros ->. apply (D s'). eapply nth_set_same. exact E. }
  destruct (li_dead _ _ I j) as [D1 D2].
  { intros t T. apply (D t). rewrite nth_set_other by congruence. exact T. }
  split; [rewrite A; exact D1|]. intros k. rewrite F by assumption. apply D2.
Qed.

Lemma step_level : forall w h i v, log_inv w h -> log_inv (fst (log_step w (SetLevel i v))) (SetLevel i v :: h).
Proof.
  intros w h i v I. cbn [log_step]. unfold on_stream.
  assert (SAME : forall n, w_level w = last_level (SetLevel n v :: h) -> log_inv w (SetLevel n v :: h)).
  { intros n L. destruct I as [C ID LV DD FG LL]. constructor; try assumption.
    intros j s E. eapply stream_inv_keep; try (apply (LV j s E)); try reflexivity; try lia. tauto. }
  destruct (nth_error (w_streams w) i) as [[s|]|] eqn:E; cbn [fst].
  - pose proof (inv_live I i s E) as AL. unfold set_level.
    destruct (level_meaning_spec v) as [[K M]|[K M]]; rewrite K; cbn [fst].
    + destruct I as [C ID LV DD FG LL]. constructor; cbn [w_handlers w_streams w_next w_level].
      * rewrite set_nth_length. exact C.
      * exact ID.
      * intros j s0 E0. destruct (Nat.eq_dec j i) as [->|D].
        -- rewrite (nth_set_same _ _ _ _ _ E) in E0. injection E0 as <-.
           destruct (LV i s E) as [A OT OF MT MF FT FF TT TF]. constructor; cbn; try assumption.
           ++ intros F. apply FF. intros x X. apply (F x). right. exact X.
           ++ intros F. apply TF. intros x X. apply (F x). right. exact X.
        -- rewrite nth_set_other in E0 by congruence.
           eapply stream_inv_keep; try (apply (LV j s0 E0)); try reflexivity; cbn; try lia. tauto.
      * intros j D. apply DD. intros t T. destruct (Nat.eq_dec j i) as [->|Dj].
        -- eapply D. eapply nth_set_same. exact E.
        -- apply (D t). rewrite nth_set_other by congruence. exact T.
      * exact FG.
      * cbn. rewrite AL, M. reflexivity.
    + apply SAME. cbn. rewrite AL, M. apply (li_level _ _ I).
  - apply SAME. cbn. destruct (li_dead _ _ I i) as [A _]; [intros t; rewrite E; discriminate|]. rewrite A. apply (li_level _ _ I).
  - apply SAME. cbn. destruct (li_dead _ _ I i) as [A _]; [intros t; rewrite E; discriminate|]. rewrite A. apply (li_level _ _ I).
Qed.

(** A step that changes nothing because the stream is gone. *)
Lemma step_dead : forall w h o i, log_inv w h -> alive i h = false ->
  (forall j, alive j (o :: h) = alive j h) -> (forall j, last_terminal j (o :: h) = last_terminal j h) ->
  (forall j, last_file j (o :: h) = last_file j h) -> (forall k, foreign k (o :: h) = foreign k h) ->
  last_level (o :: h) = last_level h -> created (o :: h) = created h -> log_inv w (o :: h).
Proof.
  intros w h o i [C ID LV DD FG LL] A EA ET EF EG EL EC. constructor.
  - congruence.
  - exact ID.
  - intros j s E. eapply stream_inv_keep; try (apply (LV j s E)); try reflexivity; auto.
  - intros j D. destruct (DD j D). split; [rewrite EA|]; assumption.
  - intros k. rewrite EG. apply FG.
  - congruence.
Qed.

Lemma andb_alive_false : forall i j h (b c : bool), alive i h = false -> (if (j =? i) && alive j h then b else c) = c.
Proof. intros i j h b c A. destruct (Nat.eqb_spec j i) as [->|D]; [rewrite A|]; reflexivity. Qed.

Lemma step_terminal : forall w h i b, log_inv w h -> log_inv (fst (log_step w (SetTerminal i b))) (SetTerminal i b :: h).
Proof.
  intros w h i b I. cbn [log_step]. unfold on_stream.
  assert (DEAD : (forall t, nth_error (w_streams w) i <> Some (Some t)) -> log_inv w (SetTerminal i b :: h)).
  { intros D. destruct (li_dead _ _ I i D) as [A _]. apply (step_dead w h _ i I A); try reflexivity.
    intros j. cbn. apply andb_alive_false, A. }
  destruct (nth_error (w_streams w) i) as [[s|]|] eqn:E; cbn [fst]; [|apply DEAD; discriminate|apply DEAD; discriminate].
  pose proof (inv_live I i s E) as AL. pose proof (li_live _ _ I i s E) as SI.
  set (w0 := {| w_handlers := remove_attr (l_terminal s) (w_handlers w); w_level := w_level w; w_streams := w_streams w; w_next := w_next w |}).
  assert (OTH : forall j k, (j <> Some i \/ Terminal <> k) -> fl j k (remove_attr (l_terminal s) (w_handlers w)) = fl j k (w_handlers w)).
  { intros j k D. eapply fl_remove_other; [apply SI | exact D]. }
  assert (OWN : fl (Some i) Terminal (remove_attr (l_terminal s) (w_handlers w)) = []).
  { eapply fl_remove_self; apply SI. }
  assert (LT : last_terminal i (SetTerminal i b :: h) = b) by (cbn; rewrite Nat.eqb_refl, AL; reflexivity).
  assert (LTO : forall j, j <> i -> last_terminal j (SetTerminal i b :: h) = last_terminal j h)
    by (intros j D; cbn; rewrite eqb_neq by exact D; reflexivity).
  assert (FO : files_open (SetTerminal i b :: h) -> files_open h) by (intros F j J; apply (F j); right; exact J).
  unfold set_terminal. destruct b; cbn [fst].
  - rewrite add_fresh by (intros x X; apply In_remove_attr in X; cbn; apply (li_ids _ _ I), X).
    set (hd := {| h_id := w_next w; h_owner := Some i; h_kind := Terminal; h_debug := l_debug s |}).
    assert (H1 : forall j k, (j <> Some i \/ Terminal <> k) -> fl j k (remove_attr (l_terminal s) (w_handlers w) ++ [hd]) = fl j k (w_handlers w)).
    { intros j k D. rewrite fl_app, OTH by exact D. rewrite (fl_one_other hd i Terminal) by (reflexivity || exact D). apply app_nil_r. }
    assert (H2 : fl (Some i) Terminal (remove_attr (l_terminal s) (w_handlers w) ++ [hd]) = [hd]).
    { rewrite fl_app, OWN. apply fl_one_self; reflexivity. }
    assert (IN : forall x, In x (remove_attr (l_terminal s) (w_handlers w) ++ [hd]) -> In x (w_handlers w) \/ x = hd).
    { intros x X. apply in_app_iff in X. destruct X as [X|[X|[]]]; [left; eapply In_remove_attr; exact X | right; congruence]. }
    constructor; cbn [w_handlers w_streams w_next w_level].
    + rewrite set_nth_length. apply (li_created _ _ I).
    + intros x X. destruct (IN x X) as [Y| ->]; [pose proof (li_ids _ _ I x Y); lia | cbn; lia].
    + intros j s0 E0. destruct (Nat.eq_dec j i) as [->|D].
      * rewrite (nth_set_same _ _ _ _ _ E) in E0. injection E0 as <-.
        destruct SI as [A OT OF MT MF FT FF TT TF]. constructor; cbn [l_terminal l_file l_to_terminal l_to_file].
        -- exact A.
        -- intros t T. injection T as <-. cbn. repeat split; try lia. intros x X Z. destruct (IN x X) as [Y|Y]; [|exact Y].
           pose proof (li_ids _ _ I x Y). cbn in Z. lia.
        -- eapply owned_shrink; [exact OF | cbn; lia |]. cbn. intros x X. destruct (IN x X) as [Y| ->]; [left; exact Y | right; cbn; lia].
        -- right. exists hd. split; [reflexivity | exact H2].
        -- unfold at_most in *. cbn. rewrite H1 by (right; discriminate). exact MF.
        -- unfold flag. rewrite LT, registered_fl. cbn [w_handlers]. rewrite H2. reflexivity.
        -- intros F. unfold flag. rewrite registered_fl. cbn [w_handlers]. rewrite H1 by (right; discriminate). apply FF, FO, F.
        -- rewrite LT. reflexivity.
        -- intros F. apply TF, FO, F.
      * rewrite nth_set_other in E0 by congruence.
        eapply stream_inv_keep; [apply (li_live _ _ I j s0 E0) | cbn; lia | | | reflexivity | apply LTO, D | reflexivity].
        -- cbn. intros x X. destruct (IN x X) as [Y| ->]; [left; exact Y | right; cbn; lia].
        -- cbn. intros k. apply H1. left. congruence.
    + intros j D. eapply dead_keep; [exact I | exact E | | reflexivity | exact D].
      cbn. intros j' k Dj. apply H1. left. congruence.
    + intros k. rewrite registered_fl, H1 by (left; discriminate). apply (li_foreign _ _ I k).
    + apply (li_level _ _ I).
  - constructor; cbn [w_handlers w_streams w_next w_level].
    + rewrite set_nth_length. apply (li_created _ _ I).
    + intros x X. apply (li_ids _ _ I). eapply In_remove_attr. exact X.
    + intros j s0 E0. destruct (Nat.eq_dec j i) as [->|D].
      * rewrite (nth_set_same _ _ _ _ _ E) in E0. injection E0 as <-.
        destruct SI as [A OT OF MT MF FT FF TT TF]. constructor; cbn [l_terminal l_file l_to_terminal l_to_file].
        -- exact A.
        -- eapply owned_shrink; [exact OT | cbn; lia |]. cbn. intros x X. left. eapply In_remove_attr. exact X.
        -- eapply owned_shrink; [exact OF | cbn; lia |]. cbn. intros x X. left. eapply In_remove_attr. exact X.
        -- left. exact OWN.
        -- unfold at_most in *. cbn. rewrite OTH by (right; discriminate). exact MF.
        -- unfold flag. rewrite LT, registered_fl. cbn [w_handlers]. rewrite OWN. reflexivity.
        -- intros F. unfold flag. rewrite registered_fl. cbn [w_handlers]. rewrite OTH by (right; discriminate). apply FF, FO, F.
        -- rewrite LT. reflexivity.
        -- intros F. apply TF, FO, F.
      * rewrite nth_set_other in E0 by congruence.
        eapply stream_inv_keep; [apply (li_live _ _ I j s0 E0) | cbn; lia | | | reflexivity | apply LTO, D | reflexivity].
        -- cbn. intros x X. left. eapply In_remove_attr. exact X.
        -- cbn. intros k. apply OTH. left. congruence.
    + intros j D. eapply dead_keep; [exact I | exact E | | reflexivity | exact D].
      cbn. intros j' k Dj. apply OTH. left. congruence.
    + intros k. rewrite registered_fl, OTH by (left; discriminate). apply (li_foreign _ _ I k).
    + apply (li_level _ _ I).
Qed.

Lemma step_file : forall w h i b ok, log_inv w h -> log_inv (fst (log_step w (SetFile i b ok))) (SetFile i b ok :: h).
Proof.
  intros w h i b ok I. cbn [log_step]. unfold on_stream.
  assert (DEAD : (forall t, nth_error (w_streams w) i <> Some (Some t)) -> log_inv w (SetFile i b ok :: h)).
  { intros D. destruct (li_dead _ _ I i D) as [A _]. apply (step_dead w h _ i I A); try reflexivity.
    intros j. cbn. apply andb_alive_false, A. }
  destruct (nth_error (w_streams w) i) as [[s|]|] eqn:E; cbn [fst]; [|apply DEAD; discriminate|apply DEAD; discriminate].
  pose proof (inv_live I i s E) as AL. pose proof (li_live _ _ I i s E) as SI.
  assert (OTH : forall j k, (j <> Some i \/ File <> k) -> fl j k (remove_attr (l_file s) (w_handlers w)) = fl j k (w_handlers w)).
  { intros j k D. eapply fl_remove_other; [apply SI | exact D]. }
  assert (OWN : fl (Some i) File (remove_attr (l_file s) (w_handlers w)) = []).
  { eapply fl_remove_self; apply SI. }
  assert (LT : last_file i (SetFile i b ok :: h) = b) by (cbn; rewrite Nat.eqb_refl, AL; reflexivity).
  assert (LTO : forall j, j <> i -> last_file j (SetFile i b ok :: h) = last_file j h)
    by (intros j D; cbn; rewrite eqb_neq by exact D; reflexivity).
  assert (FO : files_open (SetFile i b ok :: h) -> files_open h) by (intros F j J; apply (F j); right; exact J).
  unfold set_file. destruct b; [destruct ok|]; cbn [fst].
  - rewrite add_fresh by (intros x X; apply In_remove_attr in X; cbn; apply (li_ids _ _ I), X).
    set (hd := {| h_id := w_next w; h_owner := Some i; h_kind := File; h_debug := l_debug s |}).
    assert (H1 : forall j k, (j <> Some i \/ File <> k) -> fl j k (remove_attr (l_file s) (w_handlers w) ++ [hd]) = fl j k (w_handlers w)).
    { intros j k D. rewrite fl_app, OTH by exact D. rewrite (fl_one_other hd i File) by (reflexivity || exact D). apply app_nil_r. }
    assert (H2 : fl (Some i) File (remove_attr (l_file s) (w_handlers w) ++ [hd]) = [hd]).
    { rewrite fl_app, OWN. apply fl_one_self; reflexivity. }
    assert (IN : forall x, In x (remove_attr (l_file s) (w_handlers w) ++ [hd]) -> In x (w_handlers w) \/ x = hd).
    { intros x X. apply in_app_iff in X. destruct X as [X|[X|[]]]; [left; eapply In_remove_attr; exact X | right; congruence]. }
    constructor; cbn [w_handlers w_streams w_next w_level].
    + rewrite set_nth_length. apply (li_created _ _ I).
    + intros x X. destruct (IN x X) as [Y| ->]; [pose proof (li_ids _ _ I x Y); lia | cbn; lia].
    + intros j s0 E0. destruct (Nat.eq_dec j i) as [->|D].
      * rewrite (nth_set_same _ _ _ _ _ E) in E0. injection E0 as <-.
        destruct SI as [A OT OF MT MF FT FF TT TF]. constructor; cbn [l_terminal l_file l_to_terminal l_to_file].
        -- exact A.
        -- eapply owned_shrink; [exact OT | cbn; lia |]. cbn. intros x X. destruct (IN x X) as [Y| ->]; [left; exact Y | right; cbn; lia].
        -- intros t T. injection T as <-. cbn. repeat split; try lia. intros x X Z. destruct (IN x X) as [Y|Y]; [|exact Y].
           pose proof (li_ids _ _ I x Y). cbn in Z. lia.
        -- unfold at_most in *. cbn. rewrite H1 by (right; discriminate). exact MT.
        -- right. exists hd. split; [reflexivity | exact H2].
        -- unfold flag. rewrite registered_fl. cbn [w_handlers]. rewrite H1 by (right; discriminate). exact FT.
        -- intros F. unfold flag. rewrite LT, registered_fl. cbn [w_handlers]. rewrite H2. reflexivity.
        -- exact TT.
        -- intros F. rewrite LT. reflexivity.
      * rewrite nth_set_other in E0 by congruence.
        eapply stream_inv_keep; [apply (li_live _ _ I j s0 E0) | cbn; lia | | | reflexivity | reflexivity | apply LTO, D].
        -- cbn. intros x X. destruct (IN x X) as [Y| ->]; [left; exact Y | right; cbn; lia].
        -- cbn. intros k. apply H1. left. congruence.
    + intros j D. eapply dead_keep; [exact I | exact E | | reflexivity | exact D].
      cbn. intros j' k Dj. apply H1. left. congruence.
    + intros k. rewrite registered_fl, H1 by (left; discriminate). apply (li_foreign _ _ I k).
    + apply (li_level _ _ I).
  - assert (NF : ~ files_open (SetFile i true false :: h)) by (intros F; apply (F i); left; reflexivity).
    constructor; cbn [w_handlers w_streams w_next w_level].
    + apply (li_created _ _ I).
    + intros x X. apply (li_ids _ _ I). eapply In_remove_attr. exact X.
    + intros j s0 E0. destruct (Nat.eq_dec j i) as [->|D].
      * rewrite E in E0. injection E0 as <-.
        destruct SI as [A OT OF MT MF FT FF TT TF]. constructor; try contradiction.
        -- exact A.
        -- eapply owned_shrink; [exact OT | cbn; lia |]. cbn. intros x X. left. eapply In_remove_attr. exact X.
        -- eapply owned_shrink; [exact OF | cbn; lia |]. cbn. intros x X. left. eapply In_remove_attr. exact X.
        -- unfold at_most in *. cbn. rewrite OTH by (right; discriminate). exact MT.
        -- left. exact OWN.
        -- unfold flag. rewrite registered_fl. cbn [w_handlers]. rewrite OTH by (right; discriminate). exact FT.
        -- exact TT.
      * eapply stream_inv_keep; [apply (li_live _ _ I j s0 E0) | cbn; lia | | | reflexivity | reflexivity | apply LTO, D].
        -- cbn. intros x X. left. eapply In_remove_attr. exact X.
        -- cbn. intros k. apply OTH. left. congruence.
    + intros j D. destruct (li_dead _ _ I j D) as [D1 D2]. split; [exact D1|]. intros k. rewrite OTH; [apply D2|].
      left. intros EQ. injection EQ as ->. apply (D s). exact E.
    + intros k. rewrite registered_fl, OTH by (left; discriminate). apply (li_foreign _ _ I k).
    + apply (li_level _ _ I).
  - constructor; cbn [w_handlers w_streams w_next w_level].
    + rewrite set_nth_length. apply (li_created _ _ I).
    + intros x X. apply (li_ids _ _ I). eapply In_remove_attr. exact X.
    + intros j s0 E0. destruct (Nat.eq_dec j i) as [->|D].
      * rewrite (nth_set_same _ _ _ _ _ E) in E0. injection E0 as <-.
        destruct SI as [A OT OF MT MF FT FF TT TF]. constructor; cbn [l_terminal l_file l_to_terminal l_to_file].
        -- exact A.
        -- eapply owned_shrink; [exact OT | cbn; lia |]. cbn. intros x X. left. eapply In_remove_attr. exact X.
        -- eapply owned_shrink; [exact OF | cbn; lia |]. cbn. intros x X. left. eapply In_remove_attr. exact X.
        -- unfold at_most in *. cbn. rewrite OTH by (right; discriminate). exact MT.
        -- left. exact OWN.
        -- unfold flag. rewrite registered_fl. cbn [w_handlers]. rewrite OTH by (right; discriminate). exact FT.
        -- intros F. unfold flag. rewrite LT, registered_fl. cbn [w_handlers]. rewrite OWN. reflexivity.
        -- exact TT.
        -- intros F. rewrite LT. reflexivity.
      * rewrite nth_set_other in E0 by congruence.
        eapply stream_inv_keep; [apply (li_live _ _ I j s0 E0) | cbn; lia | | | reflexivity | reflexivity | apply LTO, D].
        -- cbn. intros x X. left. eapply In_remove_attr. exact X.
        -- cbn. intros k. apply OTH. left. congruence.
    + intros j D. eapply dead_keep; [exact I | exact E | | reflexivity | exact D].
      cbn. intros j' k Dj. apply OTH. left. congruence.
    + intros k. rewrite registered_fl, OTH by (left; discriminate). apply (li_foreign _ _ I k).
    + apply (li_level _ _ I).
Qed.

Lemma step_delete : forall w h i, log_inv w h -> log_inv (fst (log_step w (Delete i))) (Delete i :: h).
Proof.
  intros w h i I. cbn [log_step]. unfold on_stream.
  assert (ALO : forall j, j <> i -> alive j (Delete i :: h) = alive j h).
  { intros j D. unfold alive. cbn. rewrite eqb_neq by exact D. reflexivity. }
  assert (DEAD : (forall t, nth_error (w_streams w) i <> Some (Some t)) -> log_inv w (Delete i :: h)).
  { intros D. destruct (li_dead _ _ I i D) as [A _]. apply (step_dead w h _ i I A); try reflexivity.
    intros j. destruct (Nat.eq_dec j i) as [->|Dj]; [|apply ALO, Dj]. rewrite A. unfold alive in *. cbn [created deleted]. rewrite Nat.eqb_refl.
    destruct (i <? created h); reflexivity. }
  destruct (nth_error (w_streams w) i) as [[s|]|] eqn:E; cbn [fst]; [|apply DEAD; discriminate|apply DEAD; discriminate].
  pose proof (inv_live I i s E) as AL. pose proof (li_live _ _ I i s E) as SI.
  assert (ALI : alive i (Delete i :: h) = false).
  { unfold alive. cbn [created deleted]. rewrite Nat.eqb_refl. apply alive_created in AL. apply Nat.ltb_lt in AL. rewrite AL. reflexivity. }
  set (w0 := {| w_handlers := remove_attr (l_terminal s) (w_handlers w); w_level := w_level w; w_streams := w_streams w; w_next := w_next w |}).
  assert (OF0 : owned w0 i File (l_file s)).
  { eapply owned_shrink; [apply SI | cbn; lia |]. cbn. intros x X. left. eapply In_remove_attr. exact X. }
  assert (MF0 : at_most w0 i File (l_file s)).
  { unfold at_most. cbn. rewrite (fl_remove_other w i Terminal); [apply SI | apply SI | right; discriminate]. }
  assert (OTH : forall j k, j <> Some i -> fl j k (remove_attr (l_file s) (remove_attr (l_terminal s) (w_handlers w))) = fl j k (w_handlers w)).
  { intros j k D. rewrite (fl_remove_other w0 i File) by (auto). cbn. apply (fl_remove_other w i Terminal); [apply SI | left; exact D]. }
  assert (OWN : forall k, fl (Some i) k (remove_attr (l_file s) (remove_attr (l_terminal s) (w_handlers w))) = []).
  { intros [|].
    - rewrite (fl_remove_other w0 i File) by (auto; right; discriminate). cbn. apply fl_remove_self; apply SI.
    - apply (fl_remove_self w0 i File); assumption. }
  assert (IN : forall x, In x (remove_attr (l_file s) (remove_attr (l_terminal s) (w_handlers w))) -> In x (w_handlers w)).
  { intros x X. apply In_remove_attr in X. apply In_remove_attr in X. exact X. }
  unfold delete. constructor; cbn [w_handlers w_streams w_next w_level].
  - rewrite set_nth_length. apply (li_created _ _ I).
  - intros x X. apply (li_ids _ _ I), IN, X.
  - intros j s0 E0. destruct (Nat.eq_dec j i) as [->|D].
    + rewrite (nth_set_same _ _ _ _ _ E) in E0. discriminate.
    + rewrite nth_set_other in E0 by congruence.
      eapply stream_inv_keep; [apply (li_live _ _ I j s0 E0) | cbn; lia | | | apply ALO, D | reflexivity | reflexivity].
      * cbn. intros x X. left. apply IN, X.
      * cbn. intros k. apply OTH. congruence.
  - intros j D. destruct (Nat.eq_dec j i) as [->|Dj]; [split; [exact ALI | exact OWN]|].
    destruct (li_dead _ _ I j) as [D1 D2].
    { intros t T. apply (D t). rewrite nth_set_other by congruence. exact T. }
    split; [rewrite ALO; assumption|]. intros k. rewrite OTH by congruence. apply D2.
  - intros k. rewrite registered_fl, OTH by discriminate. apply (li_foreign _ _ I k).
  - apply (li_level _ _ I).
Qed.

Lemma step_foreign : forall w h k d, log_inv w h -> log_inv (fst (log_step w (Foreign k d))) (Foreign k d :: h).
Proof.
  intros w h k d I. cbn [log_step fst].
  rewrite add_fresh by (intros x X; cbn; apply (li_ids _ _ I), X).
  set (hd := {| h_id := w_next w; h_owner := None; h_kind := k; h_debug := d |}).
  assert (OTH : forall j k', fl (Some j) k' (w_handlers w ++ [hd]) = fl (Some j) k' (w_handlers w)).
  { intros j k'. rewrite fl_app. apply app_nil_r. }
  assert (IN : forall x, In x (w_handlers w ++ [hd]) -> In x (w_handlers w) \/ x = hd).
  { intros x X. apply in_app_iff in X. destruct X as [X|[X|[]]]; [left; exact X | right; congruence]. }
  constructor; cbn [w_handlers w_streams w_next w_level].
  - apply (li_created _ _ I).
  - intros x X. destruct (IN x X) as [Y| ->]; [pose proof (li_ids _ _ I x Y); lia | cbn; lia].
  - intros j s E. eapply stream_inv_keep; [apply (li_live _ _ I j s E) | cbn; lia | | | reflexivity | reflexivity | reflexivity].
    + cbn. intros x X. destruct (IN x X) as [Y| ->]; [left; exact Y | right; cbn; lia].
    + cbn. intros k'. apply OTH.
  - intros j D. destruct (li_dead _ _ I j D) as [D1 D2]. split; [exact D1|]. intros k'. rewrite OTH. apply D2.
  - intros k'. rewrite registered_fl, fl_app, app_length, <- registered_fl, (li_foreign _ _ I k').
    destruct k, k'; unfold fl; cbn; lia.
  - apply (li_level _ _ I).
Qed.

Lemma new_stream_eq : forall w, (forall x, In x (w_handlers w) -> h_id x < w_next w) ->
  let hd := {| h_id := w_next w; h_owner := Some (length (w_streams w)); h_kind := Terminal; h_debug := false |} in
  new_stream w = {| w_handlers := w_handlers w ++ [hd]; w_level := "INFO";
    w_streams := w_streams w ++ [Some {| l_terminal := Some hd; l_file := None; l_debug := false;
       l_to_terminal := true; l_to_file := false; l_level := "INFO" |}];
    w_next := S (w_next w) |}.
Proof.
  intros w H hd. unfold new_stream, on_stream.
  repeat (cbn [w_handlers w_streams w_next w_level fst set_level set_terminal set_file];
    rewrite nth_error_app2 by lia; rewrite Nat.sub_diag; cbn [nth_error];
    unfold set_level, set_terminal, set_file; cbn [w_handlers w_streams w_next w_level fst];
    try change (existsb (String.eqb (as_level (LInt 20))) known_levels) with true;
    cbn [w_handlers w_streams w_next w_level fst]; rewrite set_nth_app).
  cbn. rewrite add_fresh by (intros x X; cbn; apply H, X). reflexivity.
Qed.

Lemma step_new : forall w h, log_inv w h -> log_inv (fst (log_step w New)) (New :: h).
Proof.
  intros w h I. cbn [log_step fst]. rewrite new_stream_eq by apply (li_ids _ _ I).
  set (n := length (w_streams w)). set (hd := {| h_id := w_next w; h_owner := Some n; h_kind := Terminal; h_debug := false |}).
  assert (CN : created h = n) by (symmetry; apply (li_created _ _ I)).
  assert (DN : forall t, nth_error (w_streams w) n <> Some (Some t)).
  { intros t. rewrite (proj2 (nth_error_None _ _)); [discriminate | unfold n; lia]. }
  destruct (li_dead _ _ I n DN) as [_ EMPTY].
  assert (OTH : forall j k, (j <> Some n \/ Terminal <> k) -> fl j k (w_handlers w ++ [hd]) = fl j k (w_handlers w)).
  { intros j k D. rewrite fl_app. rewrite (fl_one_other hd n Terminal) by (reflexivity || exact D). apply app_nil_r. }
  assert (OWN : fl (Some n) Terminal (w_handlers w ++ [hd]) = [hd]).
  { rewrite fl_app, EMPTY. apply fl_one_self; reflexivity. }
  assert (IN : forall x, In x (w_handlers w ++ [hd]) -> In x (w_handlers w) \/ x = hd).
  { intros x X. apply in_app_iff in X. destruct X as [X|[X|[]]]; [left; exact X | right; congruence]. }
  assert (ALO : forall j, j <> n -> alive j (New :: h) = alive j h).
  { intros j D. unfold alive. cbn [created deleted]. rewrite CN. f_equal. apply eq_true_iff_eq. rewrite !Nat.ltb_lt. lia. }
  assert (ALN : alive n (New :: h) = true).
  { unfold alive. cbn [created deleted]. rewrite CN. replace (n <? S n) with true by (symmetry; apply Nat.ltb_lt; lia). cbn.
    destruct (deleted n h) eqn:D; [|reflexivity]. apply deleted_created in D. lia. }
  constructor; cbn [w_handlers w_streams w_next w_level].
  - rewrite app_length. cbn. rewrite CN. unfold n. lia.
  - intros x X. destruct (IN x X) as [Y| ->]; [pose proof (li_ids _ _ I x Y); lia | cbn; lia].
  - intros j s E. destruct (Nat.eq_dec j n) as [->|D].
    + rewrite nth_error_app2 in E by (unfold n; lia). unfold n in E. rewrite Nat.sub_diag in E. cbn in E. injection E as <-.
      assert (LT : last_terminal n (New :: h) = true) by (cbn; rewrite CN, Nat.eqb_refl; reflexivity).
      assert (LF : last_file n (New :: h) = false) by (cbn; rewrite CN, Nat.eqb_refl; reflexivity).
      constructor; cbn [l_terminal l_file l_to_terminal l_to_file].
      * exact ALN.
      * intros t T. injection T as <-. cbn. repeat split; try lia. intros x X Z. destruct (IN x X) as [Y|Y]; [|exact Y].
        pose proof (li_ids _ _ I x Y). cbn in Z. lia.
      * intros t T. discriminate.
      * right. exists hd. split; [reflexivity | exact OWN].
      * left. cbn. rewrite OTH by (right; discriminate). apply EMPTY.
      * unfold flag. rewrite LT, registered_fl. cbn [w_handlers]. rewrite OWN. reflexivity.
      * intros _. unfold flag. rewrite LF, registered_fl. cbn [w_handlers]. rewrite OTH, EMPTY by (right; discriminate). reflexivity.
      * rewrite LT. reflexivity.
      * intros _. rewrite LF. reflexivity.
    + assert (L : j < n).
      { assert (nth_error (w_streams w ++ [Some {| l_terminal := Some hd; l_file := None; l_debug := false; l_to_terminal := true; l_to_file := false; l_level := "INFO" |}]) j <> None) as NN by (rewrite E; discriminate).
        apply nth_error_Some in NN. rewrite app_length in NN. cbn in NN. fold n in NN. lia. }
      rewrite nth_error_app1 in E by exact L.
      eapply stream_inv_keep; [apply (li_live _ _ I j s E) | cbn; lia | | | apply ALO, D | |].
      * cbn. intros x X. destruct (IN x X) as [Y| ->]; [left; exact Y | right; cbn; lia].
      * cbn. intros k. apply OTH. left. congruence.
      * cbn. rewrite CN, eqb_neq by exact D. reflexivity.
      * cbn. rewrite CN, eqb_neq by exact D. reflexivity.
  - intros j D. assert (Dj : j <> n).
    { intros ->. eapply D. rewrite nth_error_app2 by (unfold n; lia). unfold n. rewrite Nat.sub_diag. reflexivity. }
    destruct (li_dead _ _ I j) as [D1 D2].
    { intros t T. apply (D t). rewrite nth_error_app1; [exact T|]. apply nth_error_Some. rewrite T. discriminate. }
    split; [rewrite ALO; assumption|]. intros k. rewrite OTH by (left; congruence). apply D2.
  - intros k. rewrite registered_fl, OTH by (left; discriminate). apply (li_foreign _ _ I k).
  - reflexivity.
Qed.

Lemma log_start_inv : log_inv log_start [].
Proof.
  constructor; try reflexivity; cbn; try contradiction.
  - intros [|i]; discriminate.
  - intros i _. split; reflexivity.
Qed.

Lemma log_invariant : forall ops, log_inv (log_run ops log_start) (rev ops).
Proof.
  induction ops as [|o ops IH] using rev_ind; [exact log_start_inv|].
  unfold log_run. rewrite fold_left_app, rev_app_distr. cbn [fold_left rev app]. fold (log_run ops log_start).
  destruct o; [apply step_new | apply step_level | apply step_terminal | apply step_file | apply step_delete | apply step_foreign]; exact IH.
Qed.

(** Consequences. *)
Lemma log_handlers : forall ops i, let l := w_handlers (log_run ops log_start) in let h := rev ops in
  registered (Some i) Terminal l = (if alive i h && last_terminal i h then 1 else 0) /\
  registered (Some i) File l <= 1 /\
  (alive i h = false -> registered (Some i) File l = 0) /\
  (files_open h -> registered (Some i) File l = if alive i h && last_file i h then 1 else 0) /\
  (forall k, registered None k l = foreign k h).
Proof.
  intros ops i l h. pose proof (log_invariant ops) as I. fold h in I. unfold l.
  destruct (nth_error (w_streams (log_run ops log_start)) i) as [[s|]|] eqn:E.
  - destruct (li_live _ _ I i s E) as [A OT OF MT MF FT FF TT TF]. rewrite A. cbn. split; [exact FT|]. split; [|split; [discriminate|split; [exact FF | apply (li_foreign _ _ I)]]].
    rewrite registered_fl. destruct MF as [M|[t [_ M]]]; rewrite M; cbn; lia.
  - destruct (li_dead _ _ I i) as [D1 D2]; [intros t; rewrite E; discriminate|]. rewrite D1, !registered_fl, !D2. cbn.
    repeat split; auto. apply (li_foreign _ _ I).
  - destruct (li_dead _ _ I i) as [D1 D2]; [intros t; rewrite E; discriminate|]. rewrite D1, !registered_fl, !D2. cbn.
    repeat split; auto. apply (li_foreign _ _ I).
Qed.

Lemma log_options : forall ops i s, let h := rev ops in nth_error (w_streams (log_run ops log_start)) i = Some (Some s) ->
  l_to_terminal s = last_terminal i h /\ (files_open h -> l_to_file s = last_file i h).
Proof. intros ops i s h E. destruct (li_live _ _ (log_invariant ops) i s E). split; assumption. Qed.

Lemma log_level : forall ops, w_level (log_run ops log_start) = last_level (rev ops).
Proof. intros. apply (li_level _ _ (log_invariant ops)). Qed.
