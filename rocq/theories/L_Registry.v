(** Lemmas about the keyword registries. *)
From Coq Require Import String Ascii List Bool Arith Lia.
From Verif Require Import Base Dict M_Registry S_Registry.
Import ListNotations.
Local Open Scope string_scope.
Local Open Scope list_scope.

(** ** Case *)

Lemma nat_lt_256 : forall a, nat_of_ascii a < 256.
Proof. exact nat_ascii_bounded. Qed.

Lemma lower_ascii_nat : forall a, nat_of_ascii (lower_ascii a) = if is_upper a then nat_of_ascii a + 32 else nat_of_ascii a.
Proof.
  intros a. unfold lower_ascii, is_upper. destruct (Nat.leb 65 (nat_of_ascii a) && Nat.leb (nat_of_ascii a) 90)%bool eqn:E; [|reflexivity].
  apply andb_prop in E. destruct E as [E1 E2]. apply Nat.leb_le in E1, E2. apply nat_ascii_embedding. lia.
Qed.

Lemma is_upper_true : forall a, is_upper a = true <-> 65 <= nat_of_ascii a <= 90.
Proof. intros. unfold is_upper. rewrite andb_true_iff, !Nat.leb_le. reflexivity. Qed.

Lemma nat_of_ascii_inj : forall a b, nat_of_ascii a = nat_of_ascii b -> a = b.
Proof. intros a b E. rewrite <- (ascii_nat_embedding a), <- (ascii_nat_embedding b), E. reflexivity. Qed.

Lemma same_letter_lower : forall a b, same_letter a b <-> lower_ascii a = lower_ascii b.
Proof.
  intros a b. split.
  - intros [->|[[U E]|[U E]]]; [reflexivity| |]; apply nat_of_ascii_inj; rewrite !lower_ascii_nat, U.
    + destruct (is_upper b) eqn:V; [|lia]. apply is_upper_true in U, V. lia.
    + destruct (is_upper a) eqn:V; [|lia]. apply is_upper_true in U, V. lia.
  - intros E. apply (f_equal nat_of_ascii) in E. rewrite !lower_ascii_nat in E. unfold same_letter.
    destruct (is_upper a) eqn:U; destruct (is_upper b) eqn:V.
    + left. apply nat_of_ascii_inj. lia.
    + right. left. split; [reflexivity | lia].
    + right. right. split; [reflexivity | lia].
    + left. apply nat_of_ascii_inj. exact E.
Qed.

Lemma same_word_lower : forall s t, same_word s t <-> lower s = lower t.
Proof.
  induction s as [|a s IH]; intros [|b t]; cbn; [tauto | split; [contradiction | discriminate] | split; [contradiction | discriminate] |].
  rewrite same_letter_lower, IH. split; [intros [-> ->]; reflexivity | intros E; injection E; auto].
Qed.

Lemma lower_idem : forall s, lower (lower s) = lower s.
Proof.
  induction s as [|a s IH]; cbn; [reflexivity|]. rewrite IH. f_equal.
  apply nat_of_ascii_inj. rewrite !lower_ascii_nat. destruct (is_upper (lower_ascii a)) eqn:V; [|reflexivity].
  apply is_upper_true in V. rewrite lower_ascii_nat in V. destruct (is_upper a) eqn:U; [apply is_upper_true in U; lia|].
  apply is_upper_true in V. congruence.
Qed.

Lemma lower_no_upper : forall s, has_upper (lower s) = false.
Proof.
  induction s as [|a s IH]; cbn; [reflexivity|]. rewrite IH, orb_false_r.
  destruct (is_upper (lower_ascii a)) eqn:V; [|reflexivity]. apply is_upper_true in V. rewrite lower_ascii_nat in V.
  destruct (is_upper a) eqn:U; [apply is_upper_true in U; lia | apply is_upper_true in V; congruence].
Qed.

(** ** The registration loop *)

Lemma register_keeps : forall ns d id k c, dget d k = Some c -> dget (fst (register d id ns)) k = Some c.
Proof.
  induction ns as [|n ns IH]; intros d id k c H; cbn; [exact H|].
  destruct (dget d (lower n)) eqn:E; [exact H|]. apply IH. rewrite dget_dset_other; [exact H|]. congruence.
Qed.

Lemma register_new : forall ns d id k c, dget (fst (register d id ns)) k = Some c ->
  dget d k = Some c \/ c = id /\ exists w, In w ns /\ k = lower w.
Proof.
  induction ns as [|n ns IH]; intros d id k c H; cbn in H; [auto|].
  destruct (dget d (lower n)) eqn:E; [auto|]. apply IH in H. destruct H as [H|(-> & w & I & ->)].
  - rewrite dget_dset in H. destruct (String.eqb k (lower n)) eqn:Q; [|auto].
    apply String.eqb_eq in Q. injection H as <-. right. split; [reflexivity|]. exists n. split; [left; reflexivity | auto].
  - right. split; [reflexivity|]. exists w. split; [right; exact I | reflexivity].
Qed.

Lemma register_all : forall ns d id, snd (register d id ns) = None -> forall w, In w ns -> dget (fst (register d id ns)) (lower w) = Some id.
Proof.
  induction ns as [|n ns IH]; intros d id H w I; [destruct I|]. cbn in *.
  destruct (dget d (lower n)) eqn:E; [discriminate|]. destruct I as [<-|I]; [|apply IH; assumption].
  apply register_keeps. apply dget_dset_same.
Qed.

Lemma register_error : forall ns d id, snd (register d id ns) = None \/ snd (register d id ns) = Some ValueError.
Proof. induction ns as [|n ns IH]; intros; cbn; [auto|]. destruct (dget d (lower n)); [auto | apply IH]. Qed.

Lemma register_ok : forall ns d id, snd (register d id ns) = None <-> NoDup (map lower ns) /\ forall w, In w ns -> dget d (lower w) = None.
Proof.
  induction ns as [|n ns IH]; intros d id; cbn.
  - split; [intros _; split; [constructor | intros w []] | auto].
  - destruct (dget d (lower n)) eqn:E.
    + split; [discriminate|]. intros [_ H]. rewrite (H n) in E by auto. discriminate.
    + rewrite IH. split.
      * intros [ND H]. split.
        -- constructor; [|exact ND]. intros I. apply in_map_iff in I. destruct I as (w & Q & I). specialize (H w I).
           rewrite Q, dget_dset_same in H. discriminate.
        -- intros w [<-|I]; [exact E|]. specialize (H w I). rewrite dget_dset in H. destruct (String.eqb (lower w) (lower n)); [discriminate | exact H].
      * intros [ND H]. apply NoDup_cons_iff in ND. destruct ND as [N ND]. split; [exact ND|]. intros w I.
        rewrite dget_dset_other; [apply H; auto|]. intros Q. apply N. rewrite Q. apply in_map. exact I.
Qed.

(** ** One class statement *)

Definition cinfo (s : state) (i : nat) : option info := match nth_error s i with Some e => e_info e | None => None end.

Lemma set_leafs_length : forall s t d, length (set_leafs s t d) = length s.
Proof. induction s; intros [|t] d; cbn; auto. Qed.
Lemma set_leafs_info : forall s t d i, cinfo (set_leafs s t d) i = cinfo s i.
Proof. unfold cinfo. induction s as [|e s IH]; intros [|t] d [|i]; cbn; auto. Qed.
Lemma set_leafs_same : forall s t d, t < length s -> leafs (set_leafs s t d) t = d.
Proof. unfold leafs. induction s as [|e s IH]; intros [|t] d H; cbn in *; try lia; [reflexivity | apply IH; lia]. Qed.
Lemma set_leafs_other : forall s t d t', t <> t' -> leafs (set_leafs s t d) t' = leafs s t'.
Proof. unfold leafs. induction s as [|e s IH]; intros [|t] d [|t'] H; cbn in *; auto; try lia. Qed.
Lemma app_leafs : forall s e t, e_leafs e = [] -> leafs (s ++ [e]) t = leafs s t.
Proof.
  intros s e t E. unfold leafs. destruct (Nat.lt_ge_cases t (length s)) as [L|L].
  - rewrite nth_error_app1 by exact L. reflexivity.
  - rewrite nth_error_app2 by exact L. rewrite (proj2 (nth_error_None s t)) by exact L.
    destruct (t - length s) as [|k]; cbn; [exact E|]. destruct k; reflexivity.
Qed.
Lemma app_info : forall s e i, cinfo (s ++ [e]) i = if Nat.eqb i (length s) then e_info e else cinfo s i.
Proof.
  intros s e i. unfold cinfo. destruct (Nat.eqb i (length s)) eqn:Q.
  - apply Nat.eqb_eq in Q. subst. rewrite nth_error_app2, Nat.sub_diag by lia. reflexivity.
  - apply Nat.eqb_neq in Q. destruct (Nat.lt_ge_cases i (length s)) as [L|L].
    + rewrite nth_error_app1 by exact L. reflexivity.
    + rewrite nth_error_app2 by exact L. rewrite (proj2 (nth_error_None s i)) by exact L.
      destruct (i - length s) as [|k] eqn:D; [lia|]. cbn. destruct k; reflexivity.
Qed.
Lemma base_info_Ok : forall s b x, base_info s b = Ok x <-> match b with None => x = root_info | Some j => cinfo s j = Some x end.
Proof.
  intros s [j|] x; cbn; [|split; congruence]. unfold cinfo. destruct (nth_error s j) as [[[y|] d]|]; cbn; split; congruence.
Qed.

Definition own_name (d : definition) (b : info) : string := match d_name d with Some n => n | None => i_name b end.
Definition own_aliases (d : definition) (b : info) : option (list string) := match d_aliases d with Some l => Some l | None => i_aliases b end.

(** Invariant about existing classes and registered keywords. *)
Definition class_ok (ds : list definition) (s : state) (i : nat) (inf : info) : Prop :=
  exists d b, nth_error ds i = Some d /\ base_info s (d_base d) = Ok b /\ (forall j, d_base d = Some j -> j < i) /\
    i_name inf = lower (own_name d b) /\
    i_aliases inf = (match d_role d with Interface => Some [] | _ => own_aliases d b end) /\
    i_tree inf = (match d_role d with Interface => Some i | _ => i_tree b end) /\
    (d_role d = Concrete -> exists l t, own_aliases d b = Some l /\ i_tree b = Some t /\
       forall w, In w (own_name d b :: l) -> dget (leafs s t) (lower w) = Some i).
Definition key_ok (ds : list definition) (s : state) (t : nat) (k : string) (c : nat) : Prop :=
  exists d b l, nth_error ds c = Some d /\ base_info s (d_base d) = Ok b /\ (forall j, d_base d = Some j -> j < c) /\
    d_role d = Concrete /\ own_aliases d b = Some l /\ i_tree b = Some t /\ exists w, In w (own_name d b :: l) /\ k = lower w.
Definition invariant (ds : list definition) (s : state) : Prop :=
  length s = length ds /\ (forall i inf, cinfo s i = Some inf -> class_ok ds s i inf) /\
  (forall i inf t, cinfo s i = Some inf -> i_tree inf = Some t -> t < length s) /\
  (forall t k c, dget (leafs s t) k = Some c -> key_ok ds s t k c).

Definition extends (s s' : state) : Prop :=
  (forall i inf, cinfo s i = Some inf -> cinfo s' i = Some inf) /\
  (forall t k c, dget (leafs s t) k = Some c -> dget (leafs s' t) k = Some c).

Lemma extends_base : forall s s' b x, extends s s' -> base_info s b = Ok x -> base_info s' b = Ok x.
Proof. intros s s' [j|] x [E _] H; apply base_info_Ok in H; apply base_info_Ok; auto. Qed.

Lemma cinfo_lt : forall s i x, cinfo s i = Some x -> i < length s.
Proof. intros s i x H. apply nth_error_Some. unfold cinfo in H. destruct (nth_error s i); congruence. Qed.

Lemma nth_error_snoc : forall A (l : list A) x i y, nth_error l i = Some y -> nth_error (l ++ [x]) i = Some y.
Proof. intros A l x i y H. rewrite nth_error_app1; [exact H|]. apply nth_error_Some. congruence. Qed.
Lemma nth_error_last : forall A (l : list A) x, nth_error (l ++ [x]) (length l) = Some x.
Proof. intros. rewrite nth_error_app2, Nat.sub_diag by lia. reflexivity. Qed.

Lemma class_ok_ext : forall ds d s s' i inf, extends s s' -> class_ok ds s i inf -> class_ok (ds ++ [d]) s' i inf.
Proof.
  intros ds d s s' i inf X (d' & b & E1 & E2 & E3 & E4 & E5 & E6 & E7). exists d', b.
  split; [apply nth_error_snoc; exact E1|]. split; [eapply extends_base; eassumption|]. split; [exact E3|].
  split; [exact E4|]. split; [exact E5|]. split; [exact E6|]. intros R. destruct (E7 R) as (l & t & A & T & H).
  exists l, t. split; [exact A|]. split; [exact T|]. intros w I. apply X. apply H. exact I.
Qed.
Lemma key_ok_ext : forall ds d s s' t k c, extends s s' -> key_ok ds s t k c -> key_ok (ds ++ [d]) s' t k c.
Proof.
  intros ds d s s' t k c X (d' & b & l & E1 & E2 & E3 & E4 & E5 & E6 & E7). exists d', b, l.
  split; [apply nth_error_snoc; exact E1|]. split; [eapply extends_base; eassumption|]. auto 8.
Qed.

(** What a statement does. *)
Lemma define_spec : forall s d, (forall i inf t, cinfo s i = Some inf -> i_tree inf = Some t -> t < length s) ->
  exists s1 inf, fst (define s d) = s1 ++ [mk_entry inf []] /\ length s1 = length s /\ (forall i, cinfo s1 i = cinfo s i) /\
    (snd (define s d) = None <-> inf <> None) /\
    ((forall t, leafs s1 t = leafs s t) /\ (inf <> None -> d_role d <> Concrete)
     \/ exists b l t, base_info s (d_base d) = Ok b /\ d_role d = Concrete /\ own_aliases d b = Some l /\ i_tree b = Some t /\
          leafs s1 t = fst (register (leafs s t) (length s) (own_name d b :: l)) /\ (forall t', t <> t' -> leafs s1 t' = leafs s t') /\
          snd (define s d) = snd (register (leafs s t) (length s) (own_name d b :: l))) /\
    (forall x, inf = Some x -> exists b, base_info s (d_base d) = Ok b /\ i_name x = lower (own_name d b) /\
       i_aliases x = (match d_role d with Interface => Some [] | _ => own_aliases d b end) /\
       i_tree x = (match d_role d with Interface => Some (length s) | _ => i_tree b end)).
Proof.
  intros s d W. unfold define. destruct (base_info s (d_base d)) as [b|e] eqn:B.
  - fold (own_name d b). fold (own_aliases d b).
    destruct (d_role d) eqn:R.
    + exists s. eexists. split; [reflexivity|]. split; [reflexivity|]. split; [reflexivity|]. split; [cbn; split; [discriminate | auto]|].
      split; [left; split; [reflexivity | discriminate]|]. intros x [= <-]. exists b. auto.
    + exists s. eexists. split; [reflexivity|]. split; [reflexivity|]. split; [reflexivity|]. split; [cbn; split; [discriminate | auto]|].
      split; [left; split; [reflexivity | discriminate]|]. intros x [= <-]. exists b. auto.
    + destruct (own_aliases d b) as [l|] eqn:A.
      * destruct (i_tree b) as [t|] eqn:T.
        -- assert (Lt : t < length s).
           { destruct (d_base d) as [j|]; apply base_info_Ok in B; [eapply W; eassumption | subst b; discriminate]. }
           pose proof (register_error (own_name d b :: l) (leafs s t) (length s)) as Er.
           destruct (register (leafs s t) (length s) (own_name d b :: l)) as [lf e] eqn:G. cbn [fst snd] in *.
           exists (set_leafs s t lf), (match e with None => Some (mk_info (lower (own_name d b)) (Some l) (Some t)) | Some _ => None end).
           split; [destruct e; reflexivity|]. split; [apply set_leafs_length|]. split; [apply set_leafs_info|].
           split; [destruct e; split; congruence|]. split.
           ++ right. exists b, l, t. split; [reflexivity|]. split; [reflexivity|]. split; [exact A|]. split; [exact T|]. rewrite G. cbn [fst snd].
              split; [apply set_leafs_same; exact Lt|]. split; [intros t' N; apply set_leafs_other; exact N | reflexivity].
           ++ intros x Ex. destruct e; [discriminate|]. injection Ex as <-. exists b. auto.
        -- exists s, None. split; [reflexivity|]. split; [reflexivity|]. split; [reflexivity|]. split; [cbn; split; congruence|].
           split; [left; split; [reflexivity | congruence] | discriminate].
      * exists s, None. split; [reflexivity|]. split; [reflexivity|]. split; [reflexivity|]. split; [cbn; split; congruence|].
        split; [left; split; [reflexivity | congruence] | discriminate].
  - exists s, None. split; [reflexivity|]. split; [reflexivity|]. split; [reflexivity|]. split; [cbn; split; congruence|].
    split; [left; split; [reflexivity | congruence] | discriminate].
Qed.

Lemma define_extends : forall s d, (forall i inf t, cinfo s i = Some inf -> i_tree inf = Some t -> t < length s) -> extends s (fst (define s d)).
Proof.
  intros s d W. destruct (define_spec s d W) as (s1 & inf & E & L & Q & _ & C & _). rewrite E. split.
  - intros i x H. rewrite app_info. destruct (Nat.eqb i (length s1)) eqn:Z; [|rewrite Q; exact H].
    apply Nat.eqb_eq in Z. apply cinfo_lt in H. lia.
  - intros t k c H. rewrite app_leafs by reflexivity. destruct C as [[C _]|(b & l & t0 & _ & _ & _ & _ & C1 & C2 & _)]; [rewrite C; exact H|].
    destruct (Nat.eq_dec t0 t) as [<-|N]; [rewrite C1; apply register_keeps; exact H | rewrite C2 by exact N; exact H].
Qed.

Lemma define_invariant : forall ds s d, invariant ds s -> invariant (ds ++ [d]) (fst (define s d)).
Proof.
  intros ds s d (L & I1 & I2 & I3). pose proof (define_extends s d I2) as X.
  destruct (define_spec s d I2) as (s1 & inf & E & L1 & Q & Z & C & N). rewrite E in *.
  assert (BX : forall x b0, base_info s b0 = Ok x -> base_info (s1 ++ [mk_entry inf []]) b0 = Ok x) by (intros; eapply extends_base; eassumption).
  assert (BL : forall x j, base_info s (Some j) = Ok x -> j < length s) by (intros x j H; apply base_info_Ok in H; eapply cinfo_lt; exact H).
  assert (Lx : length (s1 ++ [mk_entry inf []]) = length ds + 1) by (rewrite app_length; cbn; lia).
  split; [rewrite Lx, app_length; reflexivity|]. split; [|split].
  - intros i x H. rewrite app_info in H. destruct (Nat.eqb i (length s1)) eqn:Ei.
    + apply Nat.eqb_eq in Ei. subst i. cbn in H. destruct (N x H) as (b & B & N1 & N2 & N3).
      exists d, b. rewrite L1, L. split; [apply nth_error_last|]. split; [apply BX; exact B|].
      split; [intros j Ej; rewrite Ej in B; rewrite <- L; eapply BL; exact B|]. split; [exact N1|]. split; [exact N2|].
      split; [rewrite N3, L; reflexivity|]. intros R. destruct C as [[_ C]|(b' & l & t & B' & _ & A & T & C1 & C2 & C3)].
      * exfalso. apply C; [congruence | exact R].
      * rewrite B in B'. injection B' as <-. exists l, t. split; [exact A|]. split; [exact T|]. intros w Iw.
        rewrite app_leafs by reflexivity. rewrite C1, <- L. apply register_all; [|exact Iw]. rewrite <- C3. apply Z. congruence.
    + rewrite Q in H. eapply class_ok_ext; [exact X | apply I1; exact H].
  - intros i x t H T. rewrite app_info in H. rewrite Lx. destruct (Nat.eqb i (length s1)).
    + cbn in H. destruct (N x H) as (b & B & _ & _ & N3). rewrite N3 in T.
      assert (D : i_tree b = Some t -> t < length ds + 1).
      { intros T'. destruct (d_base d) as [j|]; apply base_info_Ok in B; [pose proof (I2 _ _ _ B T'); lia | subst b; discriminate]. }
      destruct (d_role d); [injection T as <-; lia | auto | auto].
    + rewrite Q in H. pose proof (I2 _ _ _ H T). lia.
  - intros t k c H. rewrite app_leafs in H by reflexivity.
    assert (Old : dget (leafs s t) k = Some c -> key_ok (ds ++ [d]) (s1 ++ [mk_entry inf []]) t k c)
      by (intros H'; eapply key_ok_ext; [exact X | apply I3; exact H']).
    destruct C as [[C _]|(b & l & t0 & B & R & A & T & C1 & C2 & _)]; [rewrite C in H; auto|].
    destruct (Nat.eq_dec t0 t) as [<-|Nt]; [|rewrite C2 in H by exact Nt; auto].
    rewrite C1 in H. apply register_new in H. destruct H as [H|(-> & w & Iw & ->)]; [auto|].
    exists d, b, l. rewrite L. split; [apply nth_error_last|]. split; [apply BX; exact B|].
    split; [intros j Ej; rewrite Ej in B; rewrite <- L; eapply BL; exact B|]. split; [exact R|]. split; [exact A|]. split; [exact T|].
    exists w. auto.
Qed.

Lemma define_all_snoc : forall ds s d, define_all s (ds ++ [d]) = fst (define (define_all s ds) d).
Proof. induction ds as [|x ds IH]; intros s d; cbn; [reflexivity | apply IH]. Qed.

Lemma all_invariant : forall ds, invariant ds (define_all [] ds).
Proof.
  induction ds as [|d ds IH] using rev_ind.
  - assert (E : forall i x, cinfo [] i = Some x -> False) by (intros [|i] x H; discriminate H).
    split; [reflexivity|]. split; [intros i inf H; destruct (E _ _ H)|]. split; [intros i inf t H; destruct (E _ _ H)|].
    intros t k c H. unfold leafs in H. destruct t; discriminate.
  - rewrite define_all_snoc. apply define_invariant. exact IH.
Qed.

Lemma all_extends : forall ds ds', extends (define_all [] ds) (define_all [] (ds ++ ds')).
Proof.
  intros ds ds'. induction ds' as [|d ds' IH] using rev_ind.
  - rewrite app_nil_r. split; auto.
  - rewrite app_assoc, define_all_snoc. destruct (all_invariant (ds ++ ds')) as (_ & _ & I2 & _).
    pose proof (define_extends (define_all [] (ds ++ ds')) d I2) as [X1 X2]. destruct IH as [Y1 Y2]. split; auto.
Qed.

(** ** Words asked for, in terms of the statements alone *)

Lemma info_name : forall ds s, invariant ds s -> forall i w, name_of ds i w -> forall inf, cinfo s i = Some inf -> i_name inf = lower w.
Proof.
  intros ds s (_ & I1 & _) i w N. induction N as [i d n E Dn|i d b n E Dn Db Nb IH|i d E Dn Db]; intros inf H;
    destruct (I1 _ _ H) as (d' & b' & E' & B & _ & Nm & _); rewrite E in E'; injection E' as <-; rewrite Nm; unfold own_name; rewrite Dn.
  - reflexivity.
  - rewrite Db in B. apply base_info_Ok in B. rewrite (IH _ B). apply lower_idem.
  - rewrite Db in B. apply base_info_Ok in B. subst b'. reflexivity.
Qed.
Lemma info_alias : forall ds s, invariant ds s -> forall i w, alias_of ds i w -> forall inf, cinfo s i = Some inf -> exists l, i_aliases inf = Some l /\ In w l.
Proof.
  intros ds s (_ & I1 & _) i w N. induction N as [i d l n E R Dn I|i d b n E R Dn Db Nb IH]; intros inf H;
    destruct (I1 _ _ H) as (d' & b' & E' & B & _ & _ & Al & _); rewrite E in E'; injection E' as <-; rewrite Al; unfold own_aliases; rewrite Dn.
  - exists l. destruct (d_role d); [congruence | auto | auto].
  - rewrite Db in B. apply base_info_Ok in B. destruct (IH _ B) as (l & El & I). exists l. destruct (d_role d); [congruence | auto | auto].
Qed.
Lemma info_tree : forall ds s, invariant ds s -> forall i t, tree_of ds i t -> forall inf, cinfo s i = Some inf -> i_tree inf = Some t.
Proof.
  intros ds s (_ & I1 & _) i t N. induction N as [i d E R|i d b t E R Db Nb IH]; intros inf H;
    destruct (I1 _ _ H) as (d' & b' & E' & B & _ & _ & _ & Tr & _); rewrite E in E'; injection E' as <-; rewrite Tr.
  - rewrite R. reflexivity.
  - rewrite Db in B. apply base_info_Ok in B. pose proof (IH _ B). destruct (d_role d); [congruence | auto | auto].
Qed.

Lemma name_info : forall ds s, invariant ds s -> forall i inf, cinfo s i = Some inf ->
  (exists w, name_of ds i w /\ lower w = i_name inf) /\
  (forall l w, i_aliases inf = Some l -> In w l -> alias_of ds i w) /\
  (forall t, i_tree inf = Some t -> tree_of ds i t).
Proof.
  intros ds s (L & I1 & _) i. induction i as [i IH] using lt_wf_ind. intros inf H.
  destruct (I1 _ _ H) as (d & b & E & B & Lt & Nm & Al & Tr & _).
  destruct (d_base d) as [j|] eqn:Db.
  - apply base_info_Ok in B. destruct (IH j (Lt j eq_refl) _ B) as ((w & Nw & Ew) & IA & IT). split; [|split].
    + rewrite Nm. unfold own_name. destruct (d_name d) as [n|] eqn:Dn.
      * exists n. split; [eapply name_own; eassumption | reflexivity].
      * exists w. split; [eapply name_base; eassumption|]. rewrite <- Ew, lower_idem. reflexivity.
    + intros l w' El I. rewrite Al in El. unfold own_aliases in El.
      destruct (d_role d) eqn:R; [injection El as <-; destruct I | |];
        (destruct (d_aliases d) as [l'|] eqn:Da;
          [injection El as ->; eapply alias_own; [exact E | congruence | exact Da | exact I]
          | eapply alias_base; [exact E | congruence | exact Da | exact Db | eapply IA; eassumption]]).
    + intros t Et. rewrite Tr in Et. destruct (d_role d) eqn:R; [injection Et as <-; eapply tree_own; eassumption | |];
        (eapply tree_base; [exact E | congruence | exact Db | apply IT; exact Et]).
  - apply base_info_Ok in B. subst b. split; [|split].
    + rewrite Nm. unfold own_name. destruct (d_name d) as [n|] eqn:Dn.
      * exists n. split; [eapply name_own; eassumption | reflexivity].
      * exists "interfaceconfiguration". split; [eapply name_root; eassumption | reflexivity].
    + intros l w' El I. rewrite Al in El. unfold own_aliases in El.
      destruct (d_role d) eqn:R; [injection El as <-; destruct I | |];
        (destruct (d_aliases d) as [l'|] eqn:Da; [injection El as ->; eapply alias_own; [exact E | congruence | exact Da | exact I] | discriminate]).
    + intros t Et. rewrite Tr in Et. destruct (d_role d) eqn:R; [injection Et as <-; eapply tree_own; eassumption | discriminate | discriminate].
Qed.

(** Existing concrete classes are registered under all their words. *)
Lemma existing_registered : forall ds i inf d t w, cinfo (define_all [] ds) i = Some inf -> nth_error ds i = Some d -> d_role d = Concrete ->
  tree_of ds i t -> word_of ds i w -> lookup (define_all [] ds) t (lower w) = Ok i.
Proof.
  intros ds i inf d t w H E R T W. pose proof (all_invariant ds) as V.
  pose proof V as (_ & I1 & _). destruct (I1 _ _ H) as (d' & b & E' & B & _ & Nm & Al & Tr & C). rewrite E in E'. injection E' as <-.
  destruct (C R) as (l & t' & A & T' & K). rewrite R in Tr, Al.
  pose proof (info_tree _ _ V _ _ T _ H) as Et. assert (t' = t) by congruence. subst t'.
  unfold lookup. destruct W as [W|W].
  - rewrite <- (info_name _ _ V _ _ W _ H), Nm, K by (left; reflexivity). reflexivity.
  - destruct (info_alias _ _ V _ _ W _ H) as (l' & El & I). assert (l' = l) by congruence. subst l'.
    rewrite K by (right; exact I). reflexivity.
Qed.

(** Every keyword refers to a class that asked for it. *)
Lemma lookup_asked : forall ds t k c, lookup (define_all [] ds) t k = Ok c ->
  exists d w, nth_error ds c = Some d /\ d_role d = Concrete /\ tree_of ds c t /\ word_of ds c w /\ same_word w k /\ has_upper k = false.
Proof.
  intros ds t k c H. unfold lookup in H. destruct (dget (leafs (define_all [] ds) t) k) as [c'|] eqn:G; [|discriminate]. injection H as ->.
  pose proof (all_invariant ds) as V. pose proof V as (_ & _ & _ & I3).
  destruct (I3 _ _ _ G) as (d & b & l & E & B & Lt & R & A & T & w & I & ->).
  assert (F : same_word w (lower w)) by (apply same_word_lower; symmetry; apply lower_idem).
  exists d. destruct (d_base d) as [j|] eqn:Db.
  - apply base_info_Ok in B. destruct (name_info _ _ V _ _ B) as ((w0 & N0 & E0) & IA & IT).
    assert (Tt : tree_of ds c t) by (eapply tree_base; [exact E | congruence | exact Db | apply IT; exact T]).
    destruct I as [I|I].
    + unfold own_name in I. destruct (d_name d) as [n|] eqn:Dn.
      * subst n. exists w. split; [exact E|]. split; [exact R|]. split; [exact Tt|].
        split; [left; eapply name_own; eassumption|]. split; [exact F | apply lower_no_upper].
      * exists w0. split; [exact E|]. split; [exact R|]. split; [exact Tt|].
        split; [left; eapply name_base; eassumption|]. split; [apply same_word_lower; rewrite lower_idem, <- I, <- E0, lower_idem; reflexivity | apply lower_no_upper].
    + exists w. split; [exact E|]. split; [exact R|]. split; [exact Tt|]. split; [|split; [exact F | apply lower_no_upper]]. right.
      unfold own_aliases in A. destruct (d_aliases d) as [l'|] eqn:Da.
      * injection A as ->. eapply alias_own; [exact E | congruence | exact Da | exact I].
      * eapply alias_base; [exact E | congruence | exact Da | exact Db | eapply IA; eassumption].
  - apply base_info_Ok in B. subst b. discriminate.
Qed.

Lemma never_overwritten : forall ds ds' t k c, lookup (define_all [] ds) t k = Ok c -> lookup (define_all [] (ds ++ ds')) t k = Ok c.
Proof.
  intros ds ds' t k c H. unfold lookup in *. destruct (dget (leafs (define_all [] ds) t) k) as [c'|] eqn:G; [|discriminate].
  rewrite (proj2 (all_extends ds ds') _ _ _ G). exact H.
Qed.

(** When a concrete class statement raises. *)
Definition exists_class (ds : list definition) (i : nat) : Prop := cinfo (define_all [] ds) i <> None.

Lemma raised_spec : forall ds d, snd (define (define_all [] ds) d) = None <-> exists_class (ds ++ [d]) (length ds).
Proof.
  intros ds d. unfold exists_class. rewrite define_all_snoc. destruct (all_invariant ds) as (L & _ & I2 & _).
  destruct (define_spec (define_all [] ds) d I2) as (s1 & inf & E & L1 & _ & Z & _). rewrite E, app_info, L1, L, Nat.eqb_refl. exact Z.
Qed.

Lemma concrete_outcome : forall ds d b inf, d_role d = Concrete -> d_base d = Some b -> cinfo (define_all [] ds) b = Some inf ->
  forall t l, i_tree inf = Some t -> own_aliases d inf = Some l ->
  snd (define (define_all [] ds) d) = snd (register (leafs (define_all [] ds) t) (length ds) (own_name d inf :: l)).
Proof.
  intros ds d b inf R Db H t l T A. destruct (all_invariant ds) as (L & _). unfold define.
  rewrite Db. rewrite (proj2 (base_info_Ok (define_all [] ds) (Some b) inf) H). rewrite R.
  fold (own_name d inf). fold (own_aliases d inf). rewrite A, T, L. destruct (register _ _ _) as [lf e]. destruct e; reflexivity.
Qed.
