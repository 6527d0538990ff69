(** Lemmas about configuration objects with identity. *)
From Coq Require Import String List Bool Arith Lia.
From Verif Require Import Base Dict M_Heap S_Heap L_Stream L_Config.
Import ListNotations.
Local Open Scope list_scope.

Lemma write_length : forall h i o, length (write h i o) = length h.
Proof. induction h; intros [|i] o; cbn; auto. Qed.

Lemma nth_write : forall h i o j, nth_error (write h i o) j = if (Nat.eqb i j && Nat.ltb i (length h))%bool then Some o else nth_error h j.
Proof.
  induction h as [|x h IH]; intros i o j; cbn.
  - rewrite andb_false_r. destruct j; reflexivity.
  - destruct i as [|i]; destruct j as [|j]; cbn; auto. rewrite IH. reflexivity.
Qed.

Lemma nth_write_same : forall h i o x, nth_error h i = Some x -> nth_error (write h i o) i = Some o.
Proof.
  intros h i o x H. rewrite nth_write, Nat.eqb_refl. replace (Nat.ltb i (length h)) with true; [reflexivity|].
  symmetry. apply Nat.ltb_lt. apply nth_error_Some. congruence.
Qed.
Lemma nth_write_other : forall h i o j, i <> j -> nth_error (write h i o) j = nth_error h j.
Proof. intros h i o j N. rewrite nth_write. apply Nat.eqb_neq in N. rewrite N. reflexivity. Qed.

Definition subs (h : heap) (i : nat) : option (dict nat) := option_map o_subs (nth_error h i).
Definition same_shape (h h' : heap) : Prop := forall i, subs h i = subs h' i.

Lemma child_subs : forall h i j, child h i j <-> exists d name, subs h i = Some d /\ In (name, j) d.
Proof.
  intros. unfold child, subs. split.
  - intros (o & name & E & I). exists (o_subs o), name. rewrite E. auto.
  - intros (d & name & E & I). destruct (nth_error h i) as [o|]; [|discriminate]. injection E as <-. exists o, name. auto.
Qed.

Lemma child_shape : forall h h' i j, same_shape h h' -> child h i j -> child h' i j.
Proof. intros h h' i j S C. apply child_subs in C. apply child_subs. rewrite <- (S i). exact C. Qed.
Lemma reach_shape : forall h h' i j, same_shape h h' -> hreach h i j -> hreach h' i j.
Proof. intros h h' i j S R. induction R; [constructor|]. econstructor; [eapply child_shape; eassumption | assumption]. Qed.
Lemma shape_sym : forall h h', same_shape h h' -> same_shape h' h.
Proof. intros h h' S i. symmetry. apply S. Qed.
Lemma shape_trans : forall a b c, same_shape a b -> same_shape b c -> same_shape a c.
Proof. intros a b c S T i. rewrite (S i). apply T. Qed.

Lemma reach_trans : forall h i j k, hreach h i j -> hreach h j k -> hreach h i k.
Proof. intros h i j k R. induction R; intros; [assumption|]. econstructor; eauto. Qed.

(** Writing labels only. *)
Lemma write_shape : forall h i o r m, nth_error h i = Some o -> same_shape h (write h i (mk_obj r m (o_subs o))).
Proof.
  intros h i o r m E j. unfold subs. destruct (Nat.eq_dec i j) as [<-|N].
  - rewrite (nth_write_same _ _ _ _ E), E. reflexivity.
  - rewrite nth_write_other by exact N. reflexivity.
Qed.

Lemma visit_spec : forall f h i r m h', visit f h i r m = Ok h' ->
  same_shape h h' /\ length h' = length h /\ (forall j, hreach h i j -> labels h' j = Some (r, m)) /\
  (forall j, labels h' j = labels h j \/ hreach h i j /\ labels h' j = Some (r, m)).
Proof.
  induction f as [|f IH]; intros h i r m h' E; cbn in E; [discriminate|].
  destruct (nth_error h i) as [o|] eqn:Eo; [|discriminate].
  set (h1 := write h i (mk_obj r m (o_subs o))) in *.
  assert (S1 : same_shape h h1) by (apply write_shape; exact Eo).
  assert (G : forall l ha, fold_left (fun acc (kj : string * nat) => let* h := acc in visit f h (snd kj) r m) l (Ok ha) = Ok h' ->
    same_shape h ha ->
    same_shape ha h' /\ length h' = length ha /\
    (forall kj j, In kj l -> hreach h (snd kj) j -> labels h' j = Some (r, m)) /\
    (forall j, labels h' j = labels ha j \/ (exists kj, In kj l /\ hreach h (snd kj) j) /\ labels h' j = Some (r, m))).
  { induction l as [|[k x] l IHl]; intros ha El Sa; cbn in El.
    - injection El as <-. split; [intros j; reflexivity|]. split; [reflexivity|]. split; [intros kj j [] | auto].
    - destruct (visit f ha x r m) as [hb|e] eqn:Ev.
      + apply IH in Ev. destruct Ev as (Sb & Lb & Rb & Ob).
        destruct (IHl hb El (shape_trans _ _ _ Sa Sb)) as (Sc & Lc & Rc & Oc).
        split; [eapply shape_trans; eassumption|]. split; [congruence|]. split.
        * intros kj j [<-|I] R; [|eapply Rc; eassumption]. cbn in R.
          destruct (Oc j) as [Q|[_ Q]]; [|exact Q]. rewrite Q. apply Rb. eapply reach_shape; eassumption.
        * intros j. destruct (Oc j) as [Q|[(kj & I & R) Q]].
          -- destruct (Ob j) as [Q2|[R Q2]]; [left; congruence|]. right. split; [|congruence].
             exists (k, x). split; [left; reflexivity|]. cbn. eapply reach_shape; [apply shape_sym; exact Sa | exact R].
          -- right. split; [exists kj; split; [right; exact I | exact R] | exact Q].
      + exfalso. clear -El. assert (X : forall l, fold_left (fun acc (kj : string * nat) => let* h := acc in visit f h (snd kj) r m) l (Err e) = Err e)
          by (induction l0; cbn; auto). rewrite X in El. discriminate. }
  destruct (G _ _ E S1) as (S2 & L2 & R2 & O2).
  assert (Li : labels h1 i = Some (r, m)) by (unfold labels, h1; rewrite (nth_write_same _ _ _ _ Eo); reflexivity).
  split; [eapply shape_trans; eassumption|]. split; [rewrite L2; apply write_length|]. split.
  - intros j R. inversion R as [|? x ? C R']; subst.
    + destruct (O2 j) as [Q|[_ Q]]; congruence.
    + destruct C as (o' & name & E1 & I). rewrite Eo in E1. injection E1 as <-. exact (R2 (name, x) j I R').
  - intros j. destruct (O2 j) as [Q|[((k, x) & I & R) Q]].
    + destruct (Nat.eq_dec i j) as [<-|N]; [right; split; [constructor | congruence]|]. left. rewrite Q.
      unfold labels, h1. rewrite nth_write_other by exact N. reflexivity.
    + right. split; [|exact Q]. econstructor; [exists o, k; split; [exact Eo | exact I] | exact R].
Qed.

(** ** The invariant *)

Definition agrees (h : heap) : Prop := forall i j, child h i j -> labels h j = labels h i.
Definition closed_heap (h : heap) : Prop := forall i j, child h i j -> j < length h.

Lemma agrees_reach : forall h i j, agrees h -> hreach h i j -> labels h j = labels h i.
Proof. intros h i j A R. induction R; [reflexivity|]. rewrite IHR. apply A. exact H. Qed.

Lemma child_lt : forall h i j, child h i j -> i < length h.
Proof. intros h i j (o & n & E & _). apply nth_error_Some. congruence. Qed.

(** Replacing what is stored in [p]; labels stay. *)
Lemma write_subs_labels : forall h p x d, nth_error h p = Some x -> forall i, labels (write h p (mk_obj (o_root x) (o_mesh x) d)) i = labels h i.
Proof.
  intros h p x d E i. unfold labels. destruct (Nat.eq_dec p i) as [<-|N]; [rewrite (nth_write_same _ _ _ _ E), E | rewrite nth_write_other by exact N]; reflexivity.
Qed.
Lemma write_subs_child : forall h p x d, nth_error h p = Some x -> forall i j, child (write h p (mk_obj (o_root x) (o_mesh x) d)) i j ->
  (i = p /\ exists name, In (name, j) d) \/ child h i j.
Proof.
  intros h p x d E i j (o & name & Eo & I). destruct (Nat.eq_dec p i) as [<-|N].
  - rewrite (nth_write_same _ _ _ _ E) in Eo. injection Eo as <-. left. split; [reflexivity|]. exists name. exact I.
  - rewrite nth_write_other in Eo by exact N. right. exists o, name. auto.
Qed.

Lemma app_child : forall h o i j, o_subs o = [] -> child (h ++ [o]) i j -> child h i j.
Proof.
  intros h o i j E (x & name & Ex & I). destruct (Nat.lt_ge_cases i (length h)) as [L|L].
  - rewrite nth_error_app1 in Ex by exact L. exists x, name. auto.
  - rewrite nth_error_app2 in Ex by exact L. destruct (i - length h) as [|k]; cbn in Ex.
    + injection Ex as <-. rewrite E in I. destruct I.
    + destruct k; discriminate.
Qed.
Lemma app_labels : forall h o i, i < length h -> labels (h ++ [o]) i = labels h i.
Proof. intros h o i L. unfold labels. rewrite nth_error_app1 by exact L. reflexivity. Qed.

Lemma step_agrees : forall limit h o h', agrees h -> closed_heap h -> hstep limit h o = Ok h' ->
  (forall p name ch, o = HAttach p name ch -> not_used_elsewhere h p ch) ->
  agrees h' /\ closed_heap h'.
Proof.
  intros limit h o h' A C E G. destruct o as [m|p name|p name ch|p name]; cbn in E.
  - injection E as <-. split; intros i j H; apply app_child in H; try reflexivity; pose proof (child_lt _ _ _ H); pose proof (C _ _ H).
    + rewrite !app_labels by assumption. apply A. exact H.
    + rewrite app_length. cbn. lia.
  - destruct (nth_error h p) as [x|] eqn:Ep; [|discriminate]. injection E as <-.
    assert (Lp : p < length h) by (apply nth_error_Some; congruence).
    set (h1 := write h p (mk_obj (o_root x) (o_mesh x) (dset (o_subs x) name (length h)))).
    assert (L1 : length h1 = length h) by apply write_length.
    assert (LE : forall i, labels h1 i = labels h i) by (apply write_subs_labels; exact Ep).
    assert (K : forall i j, child h1 i j -> (i = p /\ j = length h) \/ child h i j).
    { intros i j H. apply write_subs_child in H; [|exact Ep]. destruct H as [[-> (n' & I)]|H]; [|auto].
      apply In_dset in I. destruct I as [I|I]; [injection I as _ ->; auto|]. right. exists x, n'. auto. }
    split; intros i j H; apply app_child in H; try reflexivity; destruct (K _ _ H) as [[-> ->]|H'].
    + unfold labels at 1. rewrite nth_error_app2 by lia. rewrite L1, Nat.sub_diag. cbn.
      rewrite app_labels by lia. rewrite LE. unfold labels. rewrite Ep. reflexivity.
    + pose proof (child_lt _ _ _ H'). pose proof (C _ _ H'). rewrite !app_labels by lia. rewrite !LE. apply A. exact H'.
    + rewrite app_length. cbn. lia.
    + pose proof (C _ _ H'). rewrite app_length. cbn. lia.
  - destruct (nth_error h p) as [x|] eqn:Ep; [|discriminate].
    destruct (visit limit h ch (o_root x) (o_mesh x)) as [h1|] eqn:Ev; [|discriminate]. cbn in E.
    destruct (nth_error h1 p) as [y|] eqn:Ey; [|discriminate]. injection E as <-.
    apply visit_spec in Ev. destruct Ev as (S1 & L1 & R1 & O1).
    assert (Lx : labels h p = Some (o_root x, o_mesh x)) by (unfold labels; rewrite Ep; reflexivity).
    assert (Lp : labels h1 p = labels h p) by (destruct (O1 p) as [Q|[_ Q]]; congruence).
    specialize (G p name ch eq_refl).
    assert (A1 : agrees h1).
    { intros i j H. apply (child_shape _ _ _ _ (shape_sym _ _ S1)) in H.
      destruct (O1 i) as [Qi|[Ri Qi]].
      - destruct (O1 j) as [Qj|[Rj Qj]].
        + rewrite Qi, Qj. apply A. exact H.
        + (* j was relabelled; if i was reached as well it has the same labels *)
          assert (Hi : labels h1 i = Some (o_root x, o_mesh x) \/ labels h1 i <> Some (o_root x, o_mesh x)).
          { destruct (labels h1 i) as [[a b]|]; [|right; discriminate].
            destruct (Nat.eq_dec a (o_root x)) as [->|N1]; [|right; congruence].
            destruct (Nat.eq_dec b (o_mesh x)) as [->|N2]; [left; reflexivity | right; congruence]. }
          destruct Hi as [Hi|Hi]; [congruence|].
          assert (NR : ~ hreach h ch i) by (intros R; apply Hi; apply R1; exact R).
          rewrite Qj, Qi. rewrite (G i j H Rj NR). congruence.
      - rewrite Qi. apply R1. eapply reach_trans; [exact Ri|]. econstructor; [exact H | constructor]. }
    split; intros i j H; apply write_subs_child in H; try exact Ey.
    + rewrite !write_subs_labels by exact Ey. destruct H as [[-> (n' & I)]|H]; [|apply A1; exact H].
      apply In_dset in I. destruct I as [I|I].
      * injection I as _ ->. rewrite Lp, Lx. apply R1. constructor.
      * apply A1. exists y, n'. auto.
    + rewrite write_length, L1. destruct H as [[-> (n' & I)]|H].
      * apply In_dset in I. destruct I as [I|I].
        -- injection I as _ ->. specialize (R1 ch (hreach_self _ _)). rewrite <- L1. apply nth_error_Some.
           unfold labels in R1. destruct (nth_error h1 ch); [discriminate | cbn in R1; discriminate].
        -- apply (C p). apply (child_shape _ _ _ _ (shape_sym _ _ S1)). exists y, n'. auto.
      * apply (C i). apply (child_shape _ _ _ _ (shape_sym _ _ S1)). exact H.
  - destruct (nth_error h p) as [x|] eqn:Ep; [|discriminate]. injection E as <-.
    assert (K : forall i j, child (write h p (mk_obj (o_root x) (o_mesh x) (ddel (o_subs x) name))) i j -> child h i j).
    { intros i j H. apply write_subs_child in H; [|exact Ep]. destruct H as [[-> (n' & I)]|H]; [|exact H].
      apply In_ddel in I. exists x, n'. auto. }
    split; intros i j H; pose proof (K _ _ H) as H'.
    + rewrite !write_subs_labels by exact Ep. apply A. exact H'.
    + rewrite write_length. apply (C i). exact H'.
Qed.

Lemma careful_agrees : forall limit h ops h', careful (hstep limit) h ops h' -> agrees h -> closed_heap h -> agrees h' /\ closed_heap h'.
Proof.
  intros limit h ops h' R. induction R as [|h o h1 rest h2 E G R IH]; intros A C; [auto|].
  destruct (step_agrees _ _ _ _ A C E G) as [A1 C1]. apply IH; assumption.
Qed.

(** From an empty heap. *)
Lemma careful_shares : forall limit ops h, careful (hstep limit) [] ops h -> forall r i, hreach h r i -> labels h i = labels h r.
Proof.
  intros limit ops h R. assert (E : forall i j, ~ child [] i j) by (intros i j (o & n & E & _); destruct i; discriminate).
  destruct (careful_agrees _ _ _ _ R) as [A _]; [intros i j H; destruct (E _ _ H) | intros i j H; destruct (E _ _ H)|].
  intros r i. apply agrees_reach. exact A.
Qed.

(** The relabelling ends whenever no configuration contains itself. *)
Lemma visit_total : forall (rank : nat -> nat) f h i r m, (forall a b, child h a b -> rank b < rank a) -> closed_heap h -> i < length h ->
  rank i < f -> exists h', visit f h i r m = Ok h'.
Proof.
  intros rank. induction f as [|f IH]; intros h i r m K C L F; [lia|]. cbn.
  destruct (nth_error h i) as [o|] eqn:E; [|apply nth_error_None in E; lia].
  assert (S1 : same_shape h (write h i (mk_obj r m (o_subs o)))) by (apply write_shape; exact E).
  assert (L1 : length (write h i (mk_obj r m (o_subs o))) = length h) by apply write_length.
  assert (G : forall l ha, (forall kj, In kj l -> In kj (o_subs o)) -> same_shape h ha -> length ha = length h ->
    exists h', fold_left (fun acc (kj : string * nat) => let* h := acc in visit f h (snd kj) r m) l (Ok ha) = Ok h').
  { induction l as [|[k x] l IHl]; intros ha Hl Sa La; cbn; [eauto|].
    assert (Cx : child h i x) by (exists o, k; split; [exact E | apply Hl; left; reflexivity]).
    destruct (IH ha x r m) as [hb Eb].
    - intros a b H. apply K. eapply child_shape; [apply shape_sym; exact Sa | exact H].
    - intros a b H. rewrite La. apply (C a). eapply child_shape; [apply shape_sym; exact Sa | exact H].
    - rewrite La. eapply C. exact Cx.
    - pose proof (K _ _ Cx). lia.
    - rewrite Eb. apply visit_spec in Eb. destruct Eb as (Sb & Lb & _). apply IHl.
      + intros kj I. apply Hl. right. exact I.
      + eapply shape_trans; eassumption.
      + congruence. }
  apply G; [auto | exact S1 | exact L1].
Qed.
