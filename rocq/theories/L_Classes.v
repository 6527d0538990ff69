(** The class table of the repository meets the requirements of S_Config.v. *)
From Coq Require Import String List Bool Arith ZArith QArith Lia.
From Verif Require Import Base Dict M_Config S_Config M_Classes L_Config L_RoundTrip L_Conform.
Import ListNotations.
Local Open Scope string_scope.
Local Open Scope list_scope.

(** ** Setters accept what they produced *)

Definition idem (f : value -> result value) : Prop := forall v w, f v = Ok w -> f w = Ok w.

Lemma idem_int : idem to_int.
Proof. intros [[]|b|s|d|c] w E; cbn in E; try discriminate; injection E as <-; reflexivity. Qed.
Lemma idem_bool : idem to_bool.
Proof. intros v w E. unfold to_bool in *. injection E as <-. reflexivity. Qed.
Lemma idem_keep : idem keep.
Proof. intros v w _. reflexivity. Qed.
Lemma idem_parameter : idem to_parameter.
Proof. intros v w. unfold to_parameter. destruct (number v); [|discriminate]. intros [= <-]. reflexivity. Qed.
Lemma idem_float : idem to_float.
Proof.
  intros v w. unfold to_float. destruct v as [a|b|s|d|c]; try discriminate; destruct (number _) eqn:E; try discriminate;
  intros [= <-]; reflexivity.
Qed.
Lemma idem_reject : forall b, idem (reject_below b).
Proof.
  intros b v w. unfold reject_below. destruct (number v); [|discriminate].
  destruct (if b then _ else _) eqn:E; [discriminate|]. intros [= <-]. cbn. rewrite E. reflexivity.
Qed.
Lemma idem_positive : idem to_positive_float.
Proof.
  intros v w. unfold to_positive_float. destruct (number v) as [q|]; [|discriminate].
  destruct (Qle_bool q 0) eqn:E; [discriminate|]. intros [= <-]. cbn. rewrite E. reflexivity.
Qed.
Lemma idem_rate : idem to_rate.
Proof.
  intros v w. unfold to_rate. destruct (to_int v) as [x|] eqn:I; [|discriminate]. cbn.
  destruct x as [[|z| | |]| | | |]; try discriminate. destruct (Z.leb z 0) eqn:E; [discriminate|].
  intros [= <-]. cbn. rewrite E. reflexivity.
Qed.
Lemma idem_interval : idem to_interval.
Proof.
  intros v w E. assert (v = w) as <-; [|exact E]. revert E. unfold to_interval.
  destruct v as [[| | |l|]| | | |]; try discriminate. destruct l as [|a [|b [|c l]]]; try discriminate.
  destruct (_ || _); [discriminate|]. destruct (Qle_bool b a); [discriminate|]. intros [= <-]. reflexivity.
Qed.
Lemma idem_info : idem to_info.
Proof. intros [[]|b|s|d|c] w E; cbn in E; try discriminate; injection E as <-; reflexivity. Qed.
Lemma idem_filename : forall n, idem (to_filename n).
Proof. intros n [[]|b|s|d|c] w E; cbn in E; try discriminate; injection E as <-; reflexivity. Qed.

(** Storing all entries of a dictionary again, on top of its first keys. *)
Definition put (r : dict Q) (kv : string * Q) : dict Q := dset r (fst kv) (snd kv).

Lemma put_front : forall (d r : dict Q) k v, ~ In k (map fst d) -> dset (d ++ r) k v = d ++ dset r k v.
Proof.
  induction d as [|[k' v'] d IH]; intros r k v N; cbn; [reflexivity|].
  destruct (String.eqb k k') eqn:E; [apply String.eqb_eq in E; exfalso; apply N; left; auto|].
  rewrite IH; [reflexivity|]. intros I. apply N. right. exact I.
Qed.

Lemma put_all : forall (d r done : dict Q),
  NoDup (map fst done ++ map fst d) -> map fst r = firstn (length r) (map fst d) ->
  fold_left put d (done ++ r) = done ++ d.
Proof.
  induction d as [|[k v] d IH]; intros r done ND P; cbn in *.
  - destruct r; [reflexivity | discriminate].
  - assert (Nk : ~ In k (map fst done)).
    { intros I. apply NoDup_remove_2 in ND. apply ND. apply in_or_app. auto. }
    unfold put at 2. cbn [fst snd]. rewrite put_front by exact Nk.
    assert (E : exists r', dset r k v = (k, v) :: r' /\ map fst r' = firstn (length r') (map fst d)).
    { destruct r as [|[k' v'] r]; cbn in *; [exists []; auto|]. injection P as -> P. rewrite String.eqb_refl. exists r. auto. }
    destruct E as (r' & -> & P').
    replace (done ++ (k, v) :: r') with ((done ++ [(k, v)]) ++ r') by (rewrite <- app_assoc; reflexivity).
    rewrite IH; [rewrite <- app_assoc; reflexivity | rewrite map_app, <- app_assoc; exact ND | exact P'].
Qed.

Lemma put_same : forall d r : dict Q, NoDup (map fst d) -> map fst r = firstn (length r) (map fst d) -> fold_left put d r = d.
Proof. intros d r ND P. exact (put_all d r [] ND P). Qed.

(** Keys stay distinct and the first ones stay in place. *)
Lemma dset_front : forall (r : dict Q) k v (p : dict Q), map fst p = firstn (length p) (map fst r) -> map fst p = firstn (length p) (map fst (dset r k v)).
Proof.
  induction r as [|[k' v'] r IH]; intros k v p H; cbn in *; [destruct p; [reflexivity | discriminate]|].
  destruct p as [|[a b] p]; [reflexivity|]. cbn in *. injection H as -> H.
  destruct (String.eqb k k'); cbn; f_equal; auto.
Qed.

Section Fold.
Variable canon : string -> string.
Hypothesis canon_idem : forall k, canon (canon k) = canon k.
Definition put_canon (r : dict Q) (kv : string * Q) : dict Q := dset r (canon (fst kv)) (snd kv).

Definition kept (base r : dict Q) : Prop :=
  NoDup (map fst r) /\ map fst base = firstn (length base) (map fst r) /\ forall k, In k (map fst r) -> canon k = k.

Lemma kept_fold : forall base l r, kept base r -> kept base (fold_left put_canon l r).
Proof.
  intros base. induction l as [|[k v] l IH]; intros r H; cbn; [exact H|]. apply IH. destruct H as (ND & F & C).
  unfold put_canon. cbn [fst snd]. split; [apply NoDup_dkeys_dset; exact ND|]. split; [apply dset_front; exact F|].
  intros k' I. apply In_dkeys_dset in I. destruct I as [->|I]; [apply canon_idem | auto].
Qed.

Lemma fold_fixed : forall base r, kept base r -> fold_left put_canon r base = r.
Proof.
  intros base r (ND & F & C).
  assert (E : forall l b, (forall k, In k (map fst l) -> canon k = k) -> fold_left put_canon l b = fold_left put l b).
  { induction l as [|[k v] l IH]; intros b H; cbn; [reflexivity|]. unfold put_canon at 2, put at 2. cbn [fst snd].
    rewrite (H k) by (left; reflexivity). apply IH. intros k' I. apply H. right. exact I. }
  rewrite E by exact C. apply put_same; assumption.
Qed.
End Fold.

Lemma dimensionful_name_idem : forall k, dimensionful_name (dimensionful_name k) = dimensionful_name k.
Proof.
  intros k. unfold dimensionful_name at 2 3. cbn [dget].
  repeat match goal with |- context [String.eqb k ?x] => destruct (String.eqb k x) eqn:?E; [reflexivity|] end.
  unfold dimensionful_name. cbn [dget].
  repeat match goal with H : String.eqb k _ = false |- _ => rewrite H; clear H end. reflexivity.
Qed.

Lemma idem_dimensionful : idem to_dimensionful.
Proof.
  assert (K : kept dimensionful_name reference_values reference_values).
  { split; [cbn; repeat constructor; cbn; intuition congruence|]. split; [reflexivity|].
    intros k I. cbn in I. repeat destruct I as [<-|I]; try reflexivity. contradiction. }
  assert (Fix : forall r, kept dimensionful_name reference_values r -> to_dimensionful (VAtom (AFields r)) = Ok (VAtom (AFields r))).
  { intros r H. pose proof (fold_fixed dimensionful_name reference_values r H) as E. unfold put_canon in E. cbn.
    cbn in E. rewrite E. reflexivity. }
  intros v w E.
  assert (exists r, w = VAtom (AFields r) /\ kept dimensionful_name reference_values r) as (r & -> & H); [|apply Fix; exact H].
  unfold to_dimensionful in E. destruct v as [[]|b|s|d|c]; cbn [field_list] in E; try discriminate.
  - injection E as <-. exists reference_values. auto.
  - injection E as <-. eexists. split; [reflexivity|]. exact (kept_fold dimensionful_name dimensionful_name_idem _ d _ K).
  - destruct (fold_right _ _ d) as [l|] eqn:?; [|discriminate]. injection E as <-. eexists. split; [reflexivity|].
    exact (kept_fold dimensionful_name dimensionful_name_idem _ l _ K).
Qed.

Lemma idem_fields : idem to_fields.
Proof.
  assert (K : kept (fun k => k) [] []) by (split; [constructor|]; split; [reflexivity | intros k []]).
  assert (Fix : forall r, kept (fun k => k) [] r -> to_fields (VAtom (AFields r)) = Ok (VAtom (AFields r))).
  { intros r H. pose proof (fold_fixed (fun k => k) [] r H) as E. unfold put_canon in E. cbn. cbn in E. rewrite E. reflexivity. }
  intros v w E.
  assert (exists r, w = VAtom (AFields r) /\ kept (fun k => k) [] r) as (r & -> & H); [|apply Fix; exact H].
  unfold to_fields in E. destruct v as [[]|b|s|d|c]; cbn [field_list] in E; try discriminate.
  - injection E as <-. exists []. auto.
  - injection E as <-. eexists. split; [reflexivity|]. exact (kept_fold (fun k => k) (fun k => eq_refl) _ d _ K).
  - destruct (fold_right _ _ d) as [l|] eqn:?; [|discriminate]. injection E as <-. eexists. split; [reflexivity|].
    exact (kept_fold (fun k => k) (fun k => eq_refl) _ l _ K).
Qed.

(** ** The table *)

Definition kind_idem (k : kind atom) : Prop :=
  match k with KPlain _ f | KParam _ f => idem f | _ => True end.

Lemma table_idem : forall io, Forall (fun kC => Forall (fun nk => kind_idem (snd nk)) (k_opts (snd kC))) (repo_classes io).
Proof.
  intros []; cbn; repeat (constructor; cbn); auto using idem_int, idem_bool, idem_keep, idem_parameter, idem_float, idem_reject,
    idem_positive, idem_rate, idem_interval, idem_info, idem_filename, idem_dimensionful, idem_fields.
Qed.

(** Checks by evaluation; they do not look at setters. *)
Fixpoint distinct (l : list string) : bool :=
  match l with [] => true | a :: r => negb (existsb (String.eqb a) r) && distinct r end.
Lemma distinct_NoDup : forall l, distinct l = true -> NoDup l.
Proof.
  induction l as [|a l IH]; intros H; [constructor|]. cbn in H. apply andb_prop in H. destruct H as [H1 H2].
  constructor; [|auto]. intros I. apply negb_true_iff in H1.
  assert (existsb (String.eqb a) l = true) by (apply existsb_exists; exists a; split; [exact I | apply String.eqb_refl]). congruence.
Qed.

Definition has_base (C : class atom) (b : string) : bool := existsb (String.eqb b) (k_bases C).
Lemma has_base_In : forall C b, In b (k_bases C) <-> has_base C b = true.
Proof.
  intros. unfold has_base. rewrite existsb_exists. split.
  - intros I. exists b. split; [exact I | apply String.eqb_refl].
  - intros (x & I & E). apply String.eqb_eq in E. subst. exact I.
Qed.

Definition is_class (cs : dict (class atom)) (k : string) : bool := match dget cs k with Some _ => true | None => false end.

(** Registered classes do not derive from each other. *)
Definition leaves_ok (cs : dict (class atom)) (reg : dict (dict string)) : bool :=
  forallb (fun it : string * dict string => forallb (fun a1 : string * string => forallb (fun a2 : string * string =>
    match dget cs (snd a2) with
    | Some C2 => negb (has_base C2 (snd a1)) || String.eqb (snd a1) (snd a2)
    | None => true
    end) (snd it)) (snd it)) reg.

Lemma table_good : forall io, good_table (repo_classes io) repo_registry.
Proof.
  intros io. constructor.
  - intros cls C E. apply dget_Some_In in E.
    assert (H : forallb (fun kC : string * class atom => distinct (map fst (k_opts (snd kC)))) (repo_classes io) = true)
      by (destruct io; vm_compute; reflexivity).
    rewrite forallb_forall in H. apply distinct_NoDup. exact (H _ E).
  - intros cls C n d fset E I v w F. apply dget_Some_In in E. pose proof (table_idem io) as T.
    rewrite Forall_forall in T. specialize (T _ E). cbn [snd] in T. rewrite Forall_forall in T.
    destruct I as [I|I]; exact (T _ I v w F).
  - intros iface tree a1 c1 a2 c2 C2 Ei E1 E2 EC I. apply dget_Some_In in Ei, E1, E2.
    assert (H : leaves_ok (repo_classes io) repo_registry = true) by (destruct io; vm_compute; reflexivity).
    unfold leaves_ok in H. rewrite forallb_forall in H. specialize (H _ Ei). cbn [snd] in H.
    rewrite forallb_forall in H. specialize (H _ E1). cbn beta in H. rewrite forallb_forall in H. specialize (H _ E2).
    cbn [snd] in H. rewrite EC in H. apply orb_prop in H. destruct H as [H|H].
    + apply has_base_In in I. rewrite I in H. discriminate.
    + apply String.eqb_eq. exact H.
  - intros cls C f n E H. unfold repo_classes in E. cbn [dget] in E.
    destruct (String.eqb cls "CompressibleFlowSolver") eqn:Ecls.
    + injection E as <-. cbn [flow_solver k_hidden k_opts] in *. unfold flow_hidden in H.
      apply andb_prop in H. destruct H as [H _]. apply orb_prop in H.
      destruct H as [H|H]; apply String.eqb_eq in H; subst n; cbn; eauto.
    + exfalso. apply dget_Some_In in E.
      assert (P : Forall (fun kC : string * class atom => forall g m, k_hidden (snd kC) g m = false) (solver_parts ++ time_parts ++ flow_parts ++ io_parts))
        by (cbn; repeat (constructor; [reflexivity|]); constructor).
      rewrite Forall_forall in P. specialize (P _ E f n). cbn [snd] in P. congruence.
  - intros cls C f g n E H. unfold repo_classes in E. cbn [dget] in E.
    destruct (String.eqb cls "CompressibleFlowSolver") eqn:Ecls.
    + injection E as <-. cbn [flow_solver k_hidden]. unfold flow_hidden. rewrite H. reflexivity.
    + apply dget_Some_In in E.
      assert (P : Forall (fun kC : string * class atom => forall g m, k_hidden (snd kC) g m = false) (solver_parts ++ time_parts ++ flow_parts ++ io_parts))
        by (cbn; repeat (constructor; [reflexivity|]); constructor).
      rewrite Forall_forall in P. pose proof (P _ E f n) as A. pose proof (P _ E g n) as B. cbn [snd] in A, B. congruence.
Qed.

(** Classes without stream switches: everything but input and output. *)
Definition plain_parts (cls : string) : Prop :=
  In cls (map fst (("CompressibleFlowSolver", flow_solver false) :: solver_parts ++ time_parts ++ flow_parts)).

Definition in_parts (cls : string) : bool :=
  existsb (String.eqb cls) (map fst (("CompressibleFlowSolver", flow_solver false) :: solver_parts ++ time_parts ++ flow_parts)).
Lemma in_parts_spec : forall cls, plain_parts cls <-> in_parts cls = true.
Proof.
  intros. unfold plain_parts, in_parts. rewrite existsb_exists. split.
  - intros I. exists cls. split; [exact I | apply String.eqb_refl].
  - intros (x & I & E). apply String.eqb_eq in E. subst. exact I.
Qed.

Definition named (tree : dict string) (k : string) : bool :=
  match dget (repo_classes false) k with
  | Some C => match dget tree (k_name C) with Some k' => String.eqb k' k | None => false end
  | None => false
  end.
Definition kind_closed (k : kind atom) : bool :=
  match k with
  | KPlain _ _ | KParam _ _ => true
  | KUnique u => in_parts u && forallb (fun kC : string * class atom => negb (has_base (snd kC) u) || String.eqb (fst kC) u) (repo_classes false)
  | KInterface i d =>
      match dget repo_registry i with
      | Some tree => forallb (fun ak : string * string => in_parts (snd ak) && named tree (snd ak)) tree && named tree d
      | None => false
      end
  | KSwitch _ _ => false
  end.
Definition class_closed (cls : string) : bool :=
  match dget (repo_classes false) cls with Some C => forallb (fun nk : string * kind atom => kind_closed (snd nk)) (k_opts C) | None => false end.

Lemma parts_closed : forall cls, plain_parts cls -> exists C, dget (repo_classes false) cls = Some C /\
  forall n k, In (n, k) (k_opts C) -> kind_closed k = true.
Proof.
  intros cls H.
  assert (A : forallb class_closed (map fst (("CompressibleFlowSolver", flow_solver false) :: solver_parts ++ time_parts ++ flow_parts)) = true)
    by (vm_compute; reflexivity).
  rewrite forallb_forall in A. specialize (A _ H). unfold class_closed in A.
  destruct (dget (repo_classes false) cls) as [C|]; [|discriminate]. exists C. split; [reflexivity|].
  intros n k I. rewrite forallb_forall in A. exact (A _ I).
Qed.

Lemma named_spec : forall tree k, named tree k = true -> exists C, dget (repo_classes false) k = Some C /\ dget tree (k_name C) = Some k.
Proof.
  unfold named. intros tree k H. destruct (dget (repo_classes false) k) as [C|]; [|discriminate]. exists C. split; [reflexivity|].
  destruct (dget tree (k_name C)) as [k'|]; [|discriminate]. apply String.eqb_eq in H. congruence.
Qed.

Definition keeps_dicts (k : kind atom) : Prop :=
  match k with
  | KPlain _ f => (forall e, f (VDict e) = Ok (VDict e)) \/ (forall e, f (VDict e) <> Ok (VDict e))
  | _ => True
  end.

Lemma table_dicts : Forall (fun kC => Forall (fun nk => keeps_dicts (snd nk)) (k_opts (snd kC))) (repo_classes false).
Proof.
  assert (D : forall e, to_dimensionful (VDict e) <> Ok (VDict e))
    by (intros e; unfold to_dimensionful; destruct (field_list (VDict e)); discriminate).
  assert (F : forall e, to_fields (VDict e) <> Ok (VDict e))
    by (intros e; unfold to_fields; destruct (field_list (VDict e)); discriminate).
  unfold repo_classes, solver_parts, time_parts, flow_parts, io_parts. cbn [app].
  repeat apply Forall_cons; try apply Forall_nil; cbn [snd plain_class flow_solver k_opts app];
    repeat apply Forall_cons; try apply Forall_nil; cbn [snd keeps_dicts];
    first [exact I | right; exact D | right; exact F | left; intros e; reflexivity | right; intros e; discriminate].
Qed.

Lemma repo_closed : closed_classes (repo_classes false) repo_registry plain_parts.
Proof.
  constructor.
  - intros cls H. destruct (parts_closed cls H) as (C & E & _). eauto.
  - intros cls C n u H E I. destruct (parts_closed cls H) as (C' & E' & K). rewrite E in E'. injection E' as <-.
    specialize (K _ _ I). cbn -[in_parts] in K. apply andb_prop in K. apply in_parts_spec. tauto.
  - intros cls C n iface d H E I. destruct (parts_closed cls H) as (C' & E' & K). rewrite E in E'. injection E' as <-.
    specialize (K _ _ I). unfold kind_closed in K. destruct (dget repo_registry iface) as [tree|]; [|discriminate].
    exists tree. split; [reflexivity|]. apply andb_prop in K. destruct K as [K1 K2]. split; [|apply named_spec; exact K2].
    intros a k A. apply dget_Some_In in A. rewrite forallb_forall in K1. specialize (K1 _ A). cbn [snd] in K1.
    apply andb_prop in K1. destruct K1 as [P N]. split; [apply in_parts_spec; exact P | apply named_spec; exact N].
  - intros cls C n u b H E I. destruct (parts_closed cls H) as (C' & E' & K). rewrite E in E'. injection E' as <-.
    specialize (K _ _ I). discriminate.
  - intros cls C n d fset H E I e e' F. apply dget_Some_In in E. pose proof table_dicts as T.
    rewrite Forall_forall in T. specialize (T _ E). cbn [snd] in T. rewrite Forall_forall in T. specialize (T _ I). cbn in T.
    destruct T as [T|T]; [apply T | exfalso; exact (T e F)].
  - intros cls C n u k Ck H E I Ek B. destruct (parts_closed cls H) as (C' & E' & K). rewrite E in E'. injection E' as <-.
    specialize (K _ _ I). unfold kind_closed in K. apply andb_prop in K. destruct K as [_ K].
    rewrite forallb_forall in K. apply dget_Some_In in Ek. specialize (K _ Ek). cbn [fst snd] in K.
    apply orb_prop in K. destruct K as [K|K]; [|apply String.eqb_eq; exact K].
    apply has_base_In in B. rewrite B in K. discriminate.
Qed.

Lemma repo_buildable : forall cls r m n, plain_parts cls -> exists c n', instantiate (repo_classes false) repo_depth cls r m n = Ok (c, n').
Proof.
  intros cls r m n H. unfold plain_parts in H. cbn [map app fst solver_parts time_parts flow_parts] in H.
  assert (B : match instantiate (repo_classes false) repo_depth cls r m n with Ok _ => True | Err _ => False end).
  { repeat (destruct H as [<-|H]; [vm_compute; exact I|]). contradiction. }
  destruct (instantiate (repo_classes false) repo_depth cls r m n) as [[c n']|e]; [eauto | contradiction].
Qed.
