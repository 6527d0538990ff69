(** Lemmas on folder relocation. *)
From Coq Require Import String List Bool Arith Lia.
From Verif Require Import Base Dict M_Path S_Path.
Import ListNotations.
Local Open Scope list_scope.

Lemma folder_eqb_spec : forall a b, reflect (a = b) (folder_eqb a b).
Proof.
  induction a as [|x a IH]; intros [|y b]; cbn; try (constructor; congruence).
  destruct (String.eqb_spec x y); cbn; [|constructor; congruence].
  destruct (IH b); constructor; congruence.
Qed.

Lemma is_relative_spec : forall old p, is_relative_to p old = true <-> exists r, p = old ++ r.
Proof.
  induction old as [|o old IH]; intros p; cbn; [split; [intros _; exists p; reflexivity | intros _; destruct p; reflexivity]|].
  destruct p as [|x p]; [split; [discriminate | intros [r H]; discriminate]|].
  change (is_relative_to (x :: p) (o :: old)) with (String.eqb x o && is_relative_to p old)%bool.
  rewrite andb_true_iff, IH. destruct (String.eqb_spec x o) as [->|D].
  - split; [intros [_ [r ->]]; exists r; reflexivity | intros [r H]; injection H as H; split; [reflexivity | exists r; exact H]].
  - split; [intros [H _]; discriminate | intros [r H]; injection H as H _; congruence].
Qed.

Lemma walk_up : forall r old name fuel, length (old ++ r) <= fuel -> walk fuel name (old ++ r) old = Ok (r ++ name).
Proof.
  induction r as [|x r IH] using rev_ind; intros old name fuel H.
  - rewrite app_nil_r. assert (E : folder_eqb old old = true) by (destruct (folder_eqb_spec old old); congruence).
    destruct fuel; cbn; rewrite E; reflexivity.
  - destruct fuel as [|fuel]; [rewrite !app_length in H; cbn in H; lia|].
    cbn. destruct (folder_eqb_spec (old ++ r ++ [x]) old) as [E|_].
    + apply (f_equal (@length string)) in E. rewrite !app_length in E. cbn in E. lia.
    + rewrite app_assoc. destruct ((old ++ r) ++ [x]) eqn:E; [destruct (old ++ r); discriminate|]. rewrite <- E.
      assert (N : name_of ((old ++ r) ++ [x]) = [x]).
      { unfold name_of. rewrite E, <- E. rewrite last_last. reflexivity. }
      rewrite N. unfold parent. rewrite removelast_last. rewrite IH.
      * rewrite <- app_assoc. reflexivity.
      * rewrite !app_length in *. cbn in H. lia.
Qed.

(** Walking up from a proper prefix of [old] never meets it. *)
Lemma walk_lost : forall fuel par old name, length par < length old -> walk fuel name par old = Err NonTermination.
Proof.
  induction fuel as [|fuel IH]; intros par old name H; cbn.
  - destruct (folder_eqb_spec par old); [subst; lia|]. destruct par; reflexivity.
  - destruct (folder_eqb_spec par old); [subst; lia|]. destruct par as [|x par]; [reflexivity|].
    apply IH. unfold parent. assert (length (removelast (x :: par)) <= length (x :: par)).
    { clear. generalize (x :: par). intros l. induction l as [|a l IHl]; [cbn; lia|]. destruct l; cbn in *; lia. }
    lia.
Qed.

Lemma walk_error : forall fuel name par old e, walk fuel name par old = Err e -> e = NonTermination.
Proof.
  induction fuel as [|fuel IH]; intros name par old e W; cbn in W; destruct (folder_eqb par old); try discriminate;
    destruct par as [|x par]; try congruence.
  exact (IH _ _ _ _ W).
Qed.

Lemma relocate_spec : forall new old p, p <> old \/ p = new -> exists p', relocate new old p = Ok p' /\ moved old new p p'.
Proof.
  intros new old p G. unfold relocate. destruct (folder_eqb_spec p new) as [->|D].
  - exists new. split; [reflexivity|]. apply moved_same. reflexivity.
  - destruct (is_relative_to p old) eqn:E.
    + apply is_relative_spec in E. destruct E as [r ->].
      destruct r as [|x r] using rev_ind.
      * exfalso. rewrite app_nil_r in *. destruct G; contradiction.
      * clear IHr. assert (N : name_of (old ++ r ++ [x]) = [x]).
        { unfold name_of. rewrite app_assoc. destruct ((old ++ r) ++ [x]) eqn:E; [destruct (old ++ r); discriminate|].
          rewrite <- E, last_last. reflexivity. }
        assert (P : parent (old ++ r ++ [x]) = old ++ r). { unfold parent. rewrite app_assoc. apply removelast_last. }
        rewrite N, P. rewrite walk_up by lia. cbn. eexists. split; [reflexivity|].
        apply moved_below; [|exact D]. split; [destruct r; discriminate | reflexivity].
    + exists p. split; [reflexivity|]. apply moved_other. intros r H.
      assert (is_relative_to p old = true) by (apply is_relative_spec; exists r; exact H). congruence.
Qed.

(** An entry equal to the old location (and not to the new one): no result. *)
Lemma relocate_diverges : forall new old, old <> [] -> new <> old -> relocate new old old = Err NonTermination.
Proof.
  intros new old N D. unfold relocate. destruct (folder_eqb_spec old new) as [E|_]; [congruence|].
  assert (R : is_relative_to old old = true) by (apply is_relative_spec; exists []; rewrite app_nil_r; reflexivity).
  rewrite R. rewrite walk_lost; [reflexivity|]. unfold parent.
  destruct (exists_last N) as [l [x ->]]. rewrite removelast_last, app_length. cbn. lia.
Qed.

Lemma relocate_all_spec : forall new old data, Forall (fun kp => snd kp <> old \/ snd kp = new) data ->
  exists data', relocate_all new old data = (data', None) /\ map fst data' = map fst data /\
    forall k p, dget data k = Some p -> exists p', dget data' k = Some p' /\ moved old new p p'.
Proof.
  intros new old data F. induction F as [|[k p] data G F IH]; [exists []; repeat split; discriminate|].
  destruct IH as (d' & E & K & M). cbn in G. destruct (relocate_spec new old p G) as [p' [R1 R2]].
  exists ((k, p') :: d'). cbn. rewrite R1, E. cbn. rewrite K. repeat split.
  intros k0 p0 H. destruct (String.eqb k0 k); [injection H as <-; exists p'; split; [reflexivity | exact R2] | apply M; exact H].
Qed.

Lemma relocate_all_diverges : forall new old data, old <> [] -> new <> old -> In old (map snd data) ->
  snd (relocate_all new old data) = Some NonTermination.
Proof.
  intros new old data N D I. induction data as [|[k p] data IH]; [contradiction|]. cbn in *.
  destruct (relocate new old p) as [p'|e] eqn:R.
  - destruct I as [->|I]; [rewrite relocate_diverges in R by assumption; discriminate|].
    specialize (IH I). destruct (relocate_all new old data). exact IH.
  - cbn. destruct I as [->|I]; [rewrite relocate_diverges in R by assumption; congruence|].
    unfold relocate in R. destruct (folder_eqb p new); [discriminate|]. destruct (is_relative_to p old); [|discriminate].
    destruct (walk (length (parent p)) (name_of p) (parent p) old) as [x|x] eqn:W; [discriminate|]. cbn in R. injection R as <-.
    f_equal. exact (walk_error _ _ _ _ _ W).
Qed.

Lemma dset_values : forall (d : dict folder) k v k' p, In (k', p) (dset d k v) -> (k' = k /\ p = v) \/ In (k', p) d.
Proof.
  induction d as [|[k0 v0] d IH]; intros k v k' p I; cbn in *; [destruct I as [I|[]]; injection I as <- <-; tauto|].
  destruct (String.eqb_spec k k0) as [->|D]; cbn in I; destruct I as [I|I].
  - injection I as <- <-. tauto.
  - tauto.
  - right. left. exact I.
  - destruct (IH _ _ _ _ I) as [H|H]; tauto.
Qed.

Lemma dset_keeps_others : forall (d : dict folder) k v k' p, NoDup (dkeys d) -> In (k', p) (dset d k v) -> k' <> k -> In (k', p) d.
Proof. intros d k v k' p N I D. destruct (dset_values d k v k' p I) as [[H _]|H]; [contradiction | exact H]. Qed.

(** Relative assignment. *)
Lemma path_set_relative : forall cwd (data : dict folder) key p (root old : folder),
  NoDup (dkeys data) -> dget data "root" = Some root -> dget data key = Some old ->
  (forall k q, dget data k = Some q -> k <> key -> q <> old \/ q = root ++ p) ->
  exists data', path_set cwd data key (PRel p) = (data', None) /\ dkeys data' = dkeys data /\
    dget data' key = Some (root ++ p) /\
    forall k q, k <> key -> dget data k = Some q -> exists q', dget data' k = Some q' /\ moved old (root ++ p) q q'.
Proof.
  intros cwd data key p root old N R O G. unfold path_set. rewrite R, O.
  set (new := root ++ p). set (d1 := dset data key new).
  assert (N1 : NoDup (dkeys d1)) by (apply NoDup_dkeys_dset; exact N).
  assert (F : Forall (fun kp => snd kp <> old \/ snd kp = new) d1).
  { apply Forall_forall. intros [k q] I. cbn. destruct (string_dec k key) as [->|D].
    - apply (NoDup_In_dget d1) in I; [|exact N1]. unfold d1 in I. rewrite dget_dset_same in I. injection I as <-. right. reflexivity.
    - apply (dset_keeps_others data key new k q N) in I; [|exact D].
      apply (G k q); [apply NoDup_In_dget; assumption | exact D]. }
  destruct (relocate_all_spec new old d1 F) as (d' & E & K & M).
  exists d'. split; [exact E|]. split; [|split].
  - transitivity (dkeys d1); [exact K|]. apply dkeys_dset_present. apply dget_In_keys in O. exact O.
  - destruct (M key new (dget_dset_same data key new)) as [q [H1 H2]]. rewrite H1. f_equal.
    inversion H2 as [r B C|C|C]; try reflexivity. contradiction.
  - intros k q D H. apply (M k q). unfold d1. rewrite dget_dset_other by congruence. exact H.
Qed.

Lemma path_set_diverges : forall cwd (data : dict folder) key p (root old : folder) k,
  NoDup (dkeys data) -> dget data "root" = Some root -> dget data key = Some old -> k <> key -> dget data k = Some old ->
  old <> [] -> root ++ p <> old ->
  snd (path_set cwd data key (PRel p)) = Some NonTermination.
Proof.
  intros cwd data key p root old k N R O D H NE NEW. unfold path_set. rewrite R, O.
  apply relocate_all_diverges; try assumption.
  apply in_map_iff. exists (k, old). split; [reflexivity|]. apply dget_Some_In. rewrite dget_dset_other by congruence. exact H.
Qed.

Lemma path_set_absolute : forall cwd data key p,
  path_set cwd data key (PAbs p) = (dset data key p, None) /\ path_set cwd data key PNone = (dset data key cwd, None).
Proof. intros. split; reflexivity. Qed.

Lemma folders_clear_spec : forall cwd, cwd <> [] -> folders_clear cwd = (folders_default cwd, None).
Proof. intros cwd N. reflexivity. Qed.
